(** * TableSpec: what an identifier table is for

    A finite partial map from identifiers to entries.  [tab_history t m] says
    that the table [t] can be reached by some sequence of additions, erasures
    of used identifiers and shrinks, and that [m] is the map a user of the
    API would have kept on paper. *)
From Verif Require Import Base TableModel.

Section Spec.
Context {A : Type}.

Definition imap := Z -> option A.
Definition no_entries : imap := fun _ => None.
Definition with_entry (m : imap) (i : Z) (o : option A) : imap :=
  fun j => if j =? i then o else m j.

Inductive tab_history : table A -> imap -> Prop :=
| th_init : tab_history tab_init no_entries
| th_add : forall t m x i t', tab_history t m -> tab_add t x = Some (i, t') ->
    tab_history t' (with_entry m i (Some x))
| th_erase : forall t m i x t', tab_history t m -> m i = Some x -> tab_erase t i = Ok t' ->
    tab_history t' (with_entry m i None)
| th_shrink : forall t m, tab_history t m -> tab_history (tab_shrink t) m.

End Spec.
Arguments imap A : clear implicits.
