(** * Properties C06 and C07: identifier tables

    [tab_history t m] (TableSpec.v): table [t] reached by any sequence of
    additions, erasures and shrinks; [m] is the resulting map from identifiers
    to entries as a user would track it. *)
From Verif Require Import Base TableModel TableSpec TableProofs.

Section Properties.
Context {A : Type}.

(** C06: a new identifier differs from every identifier in use (and is never
    the invalid marker). *)
Theorem C06_fresh : forall (t : table A) m x i t',
  tab_history t m -> tab_add t x = Some (i, t') ->
  m i = None /\ 0 <= i < W31 /\ i <> INVALID.
Proof.
  intros t m x i t' H E. destruct (history_inv _ _ H) as [W G].
  destruct (tab_add_ok _ _ _ _ W E) as (_ & F & R & _).
  rewrite <- G. repeat split; try apply R; auto. unfold INVALID, W31 in *. lia.
Qed.

(** C06: every identifier denotes what the history says, in particular the
    same entry through any later growth, reuse or shrink. *)
Theorem C06_stable : forall (t : table A) m,
  tab_history t m -> forall i, tab_get t i = m i.
Proof. intros t m H. exact (proj2 (history_inv _ _ H)). Qed.

(** C06: erasing an identifier in use never trips an assertion. *)
Theorem C06_erase_defined : forall (t : table A) m i x,
  tab_history t m -> m i = Some x -> exists t', tab_erase t i = Ok t'.
Proof.
  intros t m i x H E. destruct (history_inv _ _ H) as [W G]. rewrite <- G in E.
  destruct (tab_erase_ok _ _ _ W E) as (t' & E' & _). eauto.
Qed.

(** C06: identifiers run out only when 2^31 entries are in use. *)
Theorem C06_exhaustion : forall (t : table A) m x,
  tab_history t m -> tab_add t x = None ->
  forall i, 0 <= i < W31 -> exists y, m i = Some y.
Proof.
  intros t m x H E i R. destruct (history_inv _ _ H) as [W G].
  destruct (tab_add_fails _ _ W E) as [_ F]. destruct (F i R) as [y Y]. rewrite G in Y. eauto.
Qed.

(** C07: shrinking keeps every entry under its identifier, never grows the
    table, keeps the capacity above the highest identifier in use, and does
    shrink: the result is within a factor two of what the highest identifier
    needs (or has capacity 1). *)
Theorem C07_shrink : forall (t : table A) m,
  tab_history t m ->
  (forall i, tab_get (tab_shrink t) i = m i) /\
  t_cap (tab_shrink t) <= t_cap t /\
  (forall i x, m i = Some x -> i < t_cap (tab_shrink t)) /\
  (t_cap (tab_shrink t) = 1 \/
   exists i x, m i = Some x /\ t_cap (tab_shrink t) <= 2 * i + 1).
Proof.
  intros t m H. destruct (history_inv _ _ H) as [W G].
  destruct (tab_shrink_ok _ W) as (_ & S1 & S2 & S3 & S4).
  repeat split; auto.
  - intro i. rewrite S2. apply G.
  - intros i x E. apply (S3 i x). rewrite G. exact E.
  - destruct S4 as [S4|(j & x & E & S4)]; [left; auto|right].
    exists j, x. rewrite <- G. split; auto.
    pose proof (Z.div_mod (t_cap (tab_shrink t)) 2). pose proof (Z.mod_pos_bound (t_cap (tab_shrink t)) 2). lia.
Qed.

(** C07: after a shrink the table still hands out fresh identifiers. *)
Theorem C07_usable_after : forall (t : table A) m x i t',
  tab_history t m -> tab_add (tab_shrink t) x = Some (i, t') ->
  m i = None /\ tab_get t' i = Some x /\ (forall j, j <> i -> tab_get t' j = m j).
Proof.
  intros t m x i t' H E.
  pose proof (th_shrink _ _ H) as H'. destruct (history_inv _ _ H') as [W G].
  destruct (tab_add_ok _ _ _ _ W E) as (_ & F & _ & _ & G').
  rewrite <- G. repeat split; auto.
  - rewrite G', Z.eqb_refl. reflexivity.
  - intros j N. rewrite G'. destruct (Z.eqb_spec j i); [contradiction|]. apply G.
Qed.

End Properties.
Print Assumptions C06_fresh.
Print Assumptions C06_stable.
Print Assumptions C06_erase_defined.
Print Assumptions C06_exhaustion.
Print Assumptions C07_shrink.
Print Assumptions C07_usable_after.

(** Non-vacuity: three additions, an erasure, a shrink and a reuse. *)
Definition ex_add {A} (t : table A) x := match tab_add t x with Some p => p | None => (0, t) end.
Definition ex_erase {A} (t : table A) i := match tab_erase t i with Ok t' => t' | Ub _ => t end.
Definition ex_ta := snd (ex_add (@tab_init Z) 10).
Definition ex_tb := snd (ex_add ex_ta 20).
Definition ex_t1 := snd (ex_add ex_tb 30).
Definition ex_t2 := ex_erase (ex_erase ex_t1 2) 0.

Example ex_table_history :
  tab_history (tab_shrink ex_t2)
    (with_entry (with_entry
      (with_entry (with_entry (with_entry no_entries 0 (Some 10)) 1 (Some 20)) 2 (Some 30))
      2 None) 0 None).
Proof.
  apply th_shrink.
  eapply (th_erase (ex_erase ex_t1 2) _ 0 10); [|reflexivity|reflexivity].
  eapply (th_erase ex_t1 _ 2 30); [|reflexivity|reflexivity].
  eapply (th_add ex_tb _ 30 2); [|reflexivity].
  eapply (th_add ex_ta _ 20 1); [|reflexivity].
  eapply (th_add tab_init _ 10 0); [|reflexivity].
  apply th_init.
Qed.
Example ex_table_values :
  t_cap ex_t1 = 4 /\ t_cap (tab_shrink ex_t2) = 2 /\ tab_get (tab_shrink ex_t2) 1 = Some 20 /\
  fst (ex_add (tab_shrink ex_t2) 40) = 0 /\ fst (ex_add (snd (ex_add (tab_shrink ex_t2) 40)) 50) = 2.
Proof. repeat split; vm_compute; reflexivity. Qed.
