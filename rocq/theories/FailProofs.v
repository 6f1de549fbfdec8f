(** * FailProofs: unwinding reaches the handler that is installed, and stops *)

From Coq Require Import ZArith List Bool Lia.
From Verif Require Import FailModel FailSpec.
Import ListNotations.

(** The flag is set exactly when a failure happened. *)
Definition sane (s : fstate) : Prop :=
  (flag s = true <-> In Failed (trace s)) /\ quiet (trace s).

Lemma quiet_app t l : quiet t -> (In Failed t -> forall e, ~ In (Vm e) l) -> quiet l -> quiet (t ++ l).
Proof.
  intros Q N Ql b a e E I.
  revert b E Q N. induction t as [|x t IH]; intros b E Q N; cbn in E; [eapply Ql; eauto|].
  destruct b as [|y b]; cbn in E; injection E as -> E.
  - subst a. apply in_app_or in I as [I|I].
    + apply (Q [] t e eq_refl I).
    + apply (N (or_introl eq_refl) e I).
  - apply (IH b E).
    + intros b' a' e' E' I'. apply (Q (y :: b') a' e'); [cbn; f_equal; exact E'|exact I'].
    + intros F. apply N. right. exact F.
Qed.

Lemma quiet_one e : quiet [e].
Proof.
  intros b a e0 E I. destruct b as [|x [|y b]]; cbn in E; try discriminate.
  injection E as _ <-. destruct I.
Qed.

Lemma sane_vm e s : sane s -> flag s = false -> sane (log (Vm e) s).
Proof.
  intros [F Q] N. split; cbn.
  - rewrite in_app_iff, F. cbn. intuition congruence.
  - apply quiet_app; [exact Q| |apply quiet_one].
    intros I. apply F in I. congruence.
Qed.

Lemma sane_host e s : sane s -> sane (log (Host e) s).
Proof.
  intros [F Q]. split; cbn.
  - rewrite in_app_iff, F. cbn. intuition congruence.
  - apply quiet_app; [exact Q| |apply quiet_one].
    intros _ e' [I|[]]. discriminate.
Qed.

Lemma sane_fail s : sane s -> sane (fail_flag s).
Proof.
  intros [F Q]. split; cbn.
  - rewrite in_app_iff. cbn. intuition.
  - apply quiet_app; [exact Q| |apply quiet_one].
    intros _ e' [I|[]]. discriminate.
Qed.

Scheme vchecked_ind2 := Induction for vchecked Sort Prop
  with hchecked_ind2 := Induction for hchecked Sort Prop.
Combined Scheme checked_ind from vchecked_ind2, hchecked_ind2.

(** How far the frames in use lie below the next one. *)
Definition framed (s : fstate) : Prop := forall t, jmp s = Some t -> (t < frames s)%nat.

(** Code inside the machine, started with a handler installed and no failure:
    it ends normally with no failure, or is on its way to that handler. *)
Definition vpost (s : fstate) (r : result) : Prop :=
  match r with
  | Value _ s' => sane s' /\ flag s' = false /\ jmp s' = jmp s /\ (frames s <= frames s')%nat
  | Went t s' => sane s' /\ flag s' = true /\ jmp s = Some t /\ (frames s <= frames s')%nat
  | Bad => False
  end.

(** Host code always ends normally, with the handler as it was. *)
Definition hpost (s : fstate) (r : result) : Prop :=
  match r with
  | Value _ s' => sane s' /\ jmp s' = jmp s /\ (frames s <= frames s')%nat
  | _ => False
  end.

Lemma catastrophe_post s t :
  sane s -> jmp s = Some t -> exists s', catastrophe s = Went t s' /\ sane s' /\ flag s' = true /\ frames s' = frames s.
Proof.
  intros I J. unfold catastrophe. change (jmp (fail_flag s)) with (jmp s). rewrite J.
  exists (fail_flag s). repeat split; try (apply sane_fail; exact I).
Qed.

Lemma runs :
  (forall p, vchecked p -> forall s, sane s -> flag s = false -> framed s -> jmp s <> None -> vpost s (run_v p s)) /\
  (forall p, hchecked p -> forall s, sane s -> framed s -> hpost s (run_h p s)).
Proof.
  apply checked_ind.
  - intros v s I F _ _. cbn. auto.
  - intros e k _ IH s I F R J. cbn.
    specialize (IH (log (Vm e) s) (sane_vm e s I F) F R J). exact IH.
  - intros k _ IH s I F R J. cbn.
    assert (X : vpost s (run_v k (drop_grant s))) by (exact (IH (drop_grant s) I F R J)).
    destruct (jmp s) as [t|] eqn:Jt; [|congruence].
    destruct (grants s) as [|[] g]; try exact X.
    destruct (catastrophe_post (drop_grant s) t I Jt) as (s' & E & I' & F' & N).
    rewrite E. cbn in *. rewrite N. cbn. auto.
  - intros s I F R J. cbn [run_v]. destruct (jmp s) as [t|] eqn:Jt; [|congruence].
    destruct (catastrophe_post s t I Jt) as (s' & E & I' & F' & N).
    rewrite E. cbn. rewrite N. auto.
  - intros h k _ IHh _ IHk s I F R J. cbn [run_v].
    specialize (IHh s I R). destruct (run_h h s) as [v s1| |]; try contradiction.
    destruct IHh as (I1 & J1 & N1). cbn [andb].
    destruct (flag s1) eqn:F1.
    + destruct (jmp s) as [t|] eqn:Jt; [|congruence].
      destruct (catastrophe_post s1 t I1 J1) as (s' & E & I' & F' & N).
      rewrite E. cbn. rewrite N. auto.
    + assert (R1 : framed s1) by (intros t Ht; rewrite J1 in Ht; apply R in Ht; lia).
      assert (J2 : jmp s1 <> None) by congruence.
      specialize (IHk v s1 I1 F1 R1 J2). destruct (run_v (k v) s1); cbn in *; try contradiction;
        rewrite J1 in IHk; intuition lia.
  - intros v s I R. cbn. auto.
  - intros e k _ IH s I R. cbn. exact (IH (log (Host e) s) (sane_host e s I) R).
  - intros k _ IH s I R. cbn. exact (IH (fail_flag s) (sane_fail s I) R).
  - intros body f k _ IHb _ IHk s I R. cbn [run_h].
    assert (X : hpost s (guard (run_v body) f s)).
    { unfold guard. set (s0 := set_jmp (Some (frames s)) (new_frame s)).
      assert (I0 : sane s0) by exact I.
      destruct (flag s0) eqn:F0; [cbn; split; [exact I|split; [reflexivity|lia]]|].
      assert (R0 : framed s0) by (intros t Ht; injection Ht as <-; cbn; lia).
      specialize (IHb s0 I0 F0 R0 ltac:(discriminate)).
      destruct (run_v body s0) as [v s1|t s1|]; cbn in IHb; try contradiction.
      - destruct IHb as (I1 & F1 & J1 & N1). cbn. split; [exact I1|split; [reflexivity|lia]].
      - destruct IHb as (I1 & F1 & J1 & N1). injection J1 as <-.
        rewrite Nat.eqb_refl. cbn. split; [exact I1|split; [reflexivity|lia]]. }
    destruct (guard (run_v body) f s) as [v s1| |]; try contradiction.
    destruct X as (I1 & J1 & N1).
    assert (R1 : framed s1) by (intros t Ht; rewrite J1 in Ht; apply R in Ht; lia).
    specialize (IHk v s1 I1 R1). destruct (run_h (k v) s1); cbn in *; try contradiction.
    rewrite J1 in IHk. intuition lia.
Qed.

Lemma call_post body f s :
  vchecked body -> sane s -> framed s ->
  exists v s', api_call body f s = Value v s' /\ sane s' /\ jmp s' = jmp s /\ (flag s' = true -> v = f).
Proof.
  intros C I R. unfold api_call, guard. set (s0 := set_jmp (Some (frames s)) (new_frame s)).
  destruct (flag s0) eqn:F0.
  { eexists _, _. split; [reflexivity|]. cbn. auto. }
  assert (R0 : framed s0) by (intros t Ht; injection Ht as <-; cbn; lia).
  pose proof (proj1 runs body C s0 I F0 R0 ltac:(discriminate)) as X.
  destruct (run_v body s0) as [v s1|t s1|]; cbn in X; try contradiction.
  - destruct X as (I1 & F1 & J1 & N1). eexists _, _. split; [reflexivity|].
    cbn. split; [exact I1|]. split; [reflexivity|]. congruence.
  - destruct X as (I1 & F1 & J1 & N1). injection J1 as <-. rewrite Nat.eqb_refl.
    eexists _, _. split; [reflexivity|]. cbn. auto.
Qed.
