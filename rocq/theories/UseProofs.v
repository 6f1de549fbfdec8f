(** * UseProofs: how many values are in use (used by ExecProofs) *)

From Verif Require Import Base BaseFacts State TokenModel ExprModel ParseSpec RunSpec CodeRel.

Scheme ev_mi := Minimality for ev Sort Prop
  with evs_mi := Minimality for evs Sort Prop
  with ex_mi := Minimality for ex Sort Prop
  with exs_mi := Minimality for exs Sort Prop
  with loops_mi := Minimality for loops Sort Prop.
Combined Scheme run_mi from ev_mi, evs_mi, ex_mi, exs_mi, loops_mi.

Lemma zlen_first {A} (l : list A) n : 0 <= n <= zlen l -> zlen (firstn (Z.to_nat n) l) = n.
Proof. unfold zlen. intro H. rewrite firstn_length. lia. Qed.
Lemma nth_error_first {A} (l : list A) : forall n i, (i < n)%nat -> nth_error (firstn n l) i = nth_error l i.
Proof. induction l as [|a l IH]; intros [|n] [|i] H; try lia; auto. cbn. apply IH. lia. Qed.
Lemma znth_first {A} (l : list A) n i : i < n -> znth (firstn (Z.to_nat n) l) i = znth l i.
Proof.
  intro H. rewrite !znth_def. destruct (Z.ltb_spec i 0); [reflexivity|]. apply nth_error_first. lia.
Qed.
Lemma znth_first_inv {A} (l : list A) n i x : 0 <= n -> znth (firstn (Z.to_nat n) l) i = Some x -> i < n /\ znth l i = Some x.
Proof.
  intros N H. pose proof (znth_some_range _ _ _ H) as R. unfold zlen in R. rewrite firstn_length in R.
  assert (i < n) by lia. split; [assumption|]. rewrite <- (znth_first l n) by assumption. exact H.
Qed.
Lemma first_all {A} (l : list A) n : zlen l <= n -> firstn (Z.to_nat n) l = l.
Proof. unfold zlen. intro H. apply firstn_all2. lia. Qed.

(** Positions that are not the script's business stay so. *)
Definition hidden (k : Z) (ml ml' : list (option val)) : Prop :=
  forall i, i < k -> znth ml i = Some None -> znth ml' i = Some None.

Lemma hidden_refl k ml : hidden k ml ml. Proof. intros i _ H. exact H. Qed.
Lemma hidden_trans k a b c : hidden k a b -> hidden k b c -> hidden k a c.
Proof. unfold hidden. auto. Qed.
Lemma hidden_le k k' a b : hidden k a b -> k' <= k -> hidden k' a b.
Proof. intros H L i Hi. apply H. lia. Qed.
Lemma hidden_write k p v v0 m : read p m = Some v0 -> hidden k (m_local m) (m_local (write p v m)).
Proof.
  intros R i _ H. destruct p as [j|j]; cbn in *; [exact H|]. destruct (Z.eq_dec j i) as [->|N].
  - rewrite H in R. discriminate.
  - rewrite znth_zupd_other by exact N. exact H.
Qed.
Lemma hidden_keep k n m : k <= n -> hidden k (m_local m) (m_local (keep n m)).
Proof. intros L i Hi H. cbn. rewrite znth_first by lia. exact H. Qed.
Lemma hidden_app k a b : hidden k a (a ++ b).
Proof. intros i _ H. rewrite znth_app_l; [exact H|]. apply znth_some_range in H. lia. Qed.

Lemma write_len p v m : zlen (m_local (write p v m)) = zlen (m_local m).
Proof. destruct p; cbn; [reflexivity|apply zlen_zupd]. Qed.

Lemma declare_used n E : e_scopes E <> [] ->
  e_used (declare n E) = e_used E + match e_scopes E with [_] => 0 | _ => 1 end /\ e_scopes (declare n E) <> [].
Proof. unfold declare. destruct (e_scopes E) as [|a [|b r]]; cbn; intro H; [contradiction| |]; split; try lia; discriminate. Qed.
Lemma decl_len E v m : e_scopes E <> [] ->
  zlen (m_local (decl E v m)) = zlen (m_local m) + match e_scopes E with [_] => 0 | _ => 1 end.
Proof.
  unfold decl. destruct (e_scopes E) as [|a [|b r]]; cbn; intro H; [contradiction|lia|]. rewrite zlen_app. reflexivity.
Qed.
Lemma decl_hidden k E v m : hidden k (m_local m) (m_local (decl E v m)).
Proof. unfold decl. destruct (e_scopes E) as [|a [|b r]]; cbn; try apply hidden_app. apply hidden_refl. Qed.

Lemma after_scopes s E : e_scopes E <> [] -> e_scopes (after s E) <> [].
Proof. intro H. destruct s; cbn; auto; apply declare_used; exact H. Qed.
Lemma after_used s E : e_scopes E <> [] -> e_used E <= e_used (after s E).
Proof. intro H. destruct s; cbn; try lia; (rewrite (proj1 (declare_used _ E H)); destruct (e_scopes E) as [|a [|b r]]; lia). Qed.

Section Frame.
Context {HS : Hosts}.
Variable funs : Z -> option fundef.
Variable lim mf : Z.

Definition kept (m m' : mem) : Prop := zlen (m_local m') = zlen (m_local m) /\ forall k, hidden k (m_local m) (m_local m').
Definition F_ev (E : env) (h : Z) (m : mem) (n : ast) (v : val) (m' : mem) : Prop := kept m m'.
Definition F_evs (E : env) (h : Z) (m : mem) (n : ast) (v : list val) (m' : mem) : Prop := kept m m'.
Definition grows (E : env) (m m' : mem) : Prop :=
  e_used E <= zlen (m_local m') /\ hidden (e_used E) (m_local m) (m_local m').
Definition F_ex (E : env) (b : Z) (m : mem) (s : stmt) (o : out) (m' : mem) : Prop :=
  e_scopes E <> [] -> zlen (m_local m) = e_used E ->
  grows E m m' /\ (o = Next -> zlen (m_local m') = e_used (after s E)).
Definition F_exs (E : env) (b : Z) (m : mem) (l : stmts) (o : out) (m' : mem) : Prop :=
  e_scopes E <> [] -> zlen (m_local m) = e_used E -> grows E m m'.
Definition F_loops (E : env) (b : Z) (m : mem) (e : expr) (s : stmt) (i : option expr) (o : out) (m' : mem) : Prop :=
  e_scopes E <> [] -> zlen (m_local m) = e_used E -> grows E m m'.

Lemma kept_trans a b c : kept a b -> kept b c -> kept a c.
Proof. intros [L H] [L' H']. split; [congruence|]. intro k. eapply hidden_trans; eauto. Qed.
Lemma kept_grows E m m1 m2 : kept m m1 -> zlen (m_local m) = e_used E -> (zlen (m_local m1) = e_used E -> grows E m1 m2) -> grows E m m2.
Proof. intros [L H] Z G. destruct G as [G1 G2]; [congruence|]. split; [exact G1|]. eapply hidden_trans; eauto. Qed.
Lemma kept_self E m m' : kept m m' -> zlen (m_local m) = e_used E -> grows E m m'.
Proof. intros [L H] Z. split; [lia|auto]. Qed.
Lemma grows_keep E m m' : grows E m m' -> 0 <= e_used E -> grows E m (keep (e_used E) m') /\ zlen (m_local (keep (e_used E) m')) = e_used E.
Proof.
  intros [L H] N. assert (zlen (m_local (keep (e_used E) m')) = e_used E) as Z by (cbn; apply zlen_first; lia).
  split; [|exact Z]. split; [lia|]. eapply hidden_trans; [exact H|]. apply hidden_keep. lia.
Qed.
Lemma grows_leave E o m m' : grows E m m' -> 0 <= e_used E ->
  grows E m (leave E o m') /\ (o = Next -> zlen (m_local (leave E o m')) = e_used E).
Proof. intros G N. destruct (grows_keep _ _ _ G N). destruct o; cbn [leave]; split; auto; discriminate. Qed.
Lemma grows_leave_loop E o m m' : grows E m m' -> 0 <= e_used E ->
  grows E m (leave_loop E o m') /\ (o = Next -> zlen (m_local (leave_loop E o m')) = e_used E).
Proof. intros G N. destruct (grows_keep _ _ _ G N). destruct o; cbn [leave_loop]; split; auto; discriminate. Qed.
Lemma grows_sub E E1 m m' : grows E1 m m' -> e_used E <= e_used E1 -> grows E m m'.
Proof. intros [L H] N. split; [lia|]. eapply hidden_le; eauto. Qed.
Lemma grows_trans E E1 m m1 m2 : grows E m m1 -> grows E1 m1 m2 -> e_used E <= e_used E1 -> grows E m m2.
Proof. intros [L H] [L' H'] N. split; [lia|]. eapply hidden_trans; [exact H|]. eapply hidden_le; eauto. Qed.

Lemma enter_ne E : e_scopes (enter_scope E) <> []. Proof. discriminate. Qed.

Lemma frames :
  (forall E h m n v m', ev funs lim mf E h m n v m' -> F_ev E h m n v m') /\
  (forall E h m n v m', evs funs lim mf E h m n v m' -> F_evs E h m n v m') /\
  (forall E b m s o m', ex funs lim mf E b m s o m' -> F_ex E b m s o m') /\
  (forall E b m l o m', exs funs lim mf E b m l o m' -> F_exs E b m l o m') /\
  (forall E b m e s i o m', loops funs lim mf E b m e s i o m' -> F_loops E b m e s i o m').
Proof.
  assert (Kr : forall m, kept m m) by (intro; split; [reflexivity|intro; apply hidden_refl]).
  assert (Kw : forall p v v0 m, read p m = Some v0 -> kept m (write p v m)).
  { intros p v v0 m R. split; [apply write_len|]. intro k. eapply hidden_write; eauto. }
  assert (Kf : forall m m1 o k v l, kept m m1 -> kept m (set_field o k v l m1)) by (intros; assumption).
  apply run_mi; unfold F_ev, F_evs, F_ex, F_exs, F_loops; intros; auto.
  - solve [eauto using kept_trans, Kw].
  - solve [eauto using kept_trans, Kw].
  - eapply Kw; eauto.
  - destruct (kept_trans _ _ _ H1 H3) as [L Hd]. split; [exact L|exact Hd].
  - destruct (kept_trans _ _ _ H1 H3) as [L Hd]. split; [exact L|exact Hd].
  - apply (Kr m).
  - solve [eauto using kept_trans, Kw].
  - eapply Kf. eapply kept_trans; [eassumption|]. eapply kept_trans; eauto.
  - eapply Kf. eapply kept_trans; [eassumption|]. eapply kept_trans; [eassumption|]. eapply kept_trans; eauto.
  - destruct (kept_trans _ _ _ H4 H9) as [L Hd]. split; [exact L|exact Hd].
  - destruct (kept_trans _ _ _ H4 H9) as [L Hd]. split; [exact L|exact Hd].
  - solve [eauto using kept_trans, Kw].
  - split; [apply kept_self; auto|]. intros _. cbn. destruct H0. congruence.
  - destruct (declare_used (tk_str n) E H0) as [U _]. split.
    + split; [rewrite decl_len by assumption; destruct (e_scopes E) as [|? [|? ?]]; lia|apply decl_hidden].
    + intros _. cbn [after]. rewrite decl_len by assumption. lia.
  - destruct (declare_used (tk_str n) E H2) as [U _]. destruct H0 as [L Hd]. split.
    + split; [rewrite decl_len by assumption; destruct (e_scopes E) as [|? [|? ?]]; lia|].
      eapply hidden_trans; [apply Hd|apply decl_hidden].
    + intros _. cbn [after]. rewrite decl_len by assumption. lia.
  - split; [apply kept_self; auto|discriminate].
  - specialize (H0 (enter_ne E) H2). pose proof (zlen_nonneg (m_local m)). apply (grows_leave E out m m' H0). lia.
  - pose proof (zlen_nonneg (m_local m)). apply (grows_leave E out m m2); [|lia].
    eapply kept_grows; eauto. intro Z. apply (H5 (enter_ne E) Z).
  - split; [apply kept_self; auto|]. intros _. cbn. destruct H0. congruence.
  - pose proof (zlen_nonneg (m_local m)). apply (grows_leave E out m m2); [|lia].
    eapply kept_grows; eauto. intro Z. apply (H5 (enter_ne E) Z).
  - pose proof (zlen_nonneg (m_local m)). apply (grows_leave E out m m2); [|lia].
    eapply kept_grows; eauto. intro Z. apply (H4 (enter_ne E) Z).
  - pose proof (zlen_nonneg (m_local m)). apply (grows_leave_loop E out m m'); [|lia]. apply (H0 (enter_ne (enter_scope E)) H2).
  - pose proof (zlen_nonneg (m_local m)). destruct (H0 (enter_ne (enter_loop E)) H3) as [G _].
    apply (grows_leave_loop E (stops out1) m m1 G). lia.
  - pose proof (zlen_nonneg (m_local m)). destruct (H0 (enter_ne (enter_loop E)) H6) as [G _].
    change (grows E m m1) in G. destruct (grows_keep _ _ _ G ltac:(lia)) as [G1 Z1]. destruct H2 as [L Hd].
    split; [|intros _; cbn [after]; lia]. split; [lia|]. eapply hidden_trans; [apply G1|apply Hd].
  - pose proof (zlen_nonneg (m_local m)). destruct (H0 (enter_ne (enter_loop E)) H9) as [G _].
    change (grows E m m1) in G. destruct (grows_keep _ _ _ G ltac:(lia)) as [G1 Z1]. destruct H2 as [L Hd].
    destruct (H7 H8 ltac:(lia)) as [G2 N2]. split; [|exact N2].
    split; [apply G2|]. eapply hidden_trans; [apply G1|]. eapply hidden_trans; [apply Hd|apply G2].
  - pose proof (zlen_nonneg (m_local m)). destruct (H0 (enter_ne (enter_scope E)) H5) as [G Z]. specialize (Z eq_refl).
    pose proof (after_used s0 (enter_loop E) (enter_ne _)) as U. change (e_used (enter_loop E)) with (e_used E) in U.
    specialize (H2 (after_scopes _ _ (enter_ne _)) Z).
    apply (grows_leave_loop E out m m'); [|lia]. eapply (grows_trans E (after s0 (enter_loop E)) m m1); eauto.
  - pose proof (zlen_nonneg (m_local m)). destruct (H0 (enter_ne (enter_scope E)) H3) as [G _].
    apply (grows_leave_loop E (stops out) m m1 G). lia.
  - split; [apply kept_self; auto|discriminate].
  - destruct (declare_used (tk_str n) E H1) as [U _]. split.
    + split; [rewrite decl_len by assumption; destruct (e_scopes E) as [|? [|? ?]]; lia|apply decl_hidden].
    + intros _. cbn [after]. rewrite decl_len by assumption. lia.
  - apply kept_self; auto.
  - destruct (H0 H3 H4) as [G N]. specialize (N eq_refl). specialize (H2 (after_scopes _ _ H3) N).
    eapply grows_trans; eauto. apply after_used; exact H3.
  - apply H0; assumption.
  - apply kept_self; auto.
  - eapply kept_grows; eauto. intro Z. apply (H5 (enter_ne E) Z).
  - pose proof (zlen_nonneg (m_local m)). eapply kept_grows; eauto. intro Z. destruct (H5 (enter_ne E) Z) as [G _].
    change (grows E m1 m2) in G. destruct (grows_keep _ _ _ G ltac:(lia)) as [G1 Z1].
    eapply grows_trans; [exact G1|apply (H7 H8 Z1)|lia].
  - pose proof (zlen_nonneg (m_local m)). eapply kept_grows; eauto. intro Z. destruct (H5 (enter_ne E) Z) as [G _].
    change (grows E m1 m2) in G. destruct (grows_keep _ _ _ G ltac:(lia)) as [G1 Z1].
    eapply grows_trans; [exact G1| |apply Z.le_refl]. eapply kept_grows; eauto.
Qed.
End Frame.

(** ** How the variables of a scope are counted *)

Definition base (E : env) : Z := e_used E - locals_of E.

Lemma declare_base n E : e_scopes E <> [] -> base (declare n E) = base E.
Proof.
  unfold base, locals_of, declare. destruct (e_scopes E) as [|a [|b r]]; intro H; [contradiction| |]; cbn [e_used e_scopes filter is_local snd].
  - lia.
  - rewrite zlen_cons. lia.
Qed.
Lemma after_base s E : e_scopes E <> [] -> base (after s E) = base E.
Proof. intro H. destruct s; cbn [after]; auto; apply declare_base; exact H. Qed.
Lemma base_enter E : base (enter_scope E) = e_used E.
Proof. unfold base, locals_of. cbn. lia. Qed.
Lemma after_plain s E : declares s = false -> after s E = E.
Proof. destruct s; cbn; auto; discriminate. Qed.
