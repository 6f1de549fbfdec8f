(** * MonadFacts: reasoning about model functions *)
From Verif Require Export BaseFacts State TableProofs.

Ltac vs :=
  cbn [v_errs v_ctxs v_cur v_static v_smask v_code v_cmask v_strs v_byhash v_objs v_hlist v_funcs
       v_gcpass v_gcint v_gccount v_newint v_newcount v_extfuncs v_globals v_maxstack v_maxfields
       v_exttypes v_left v_subsys v_files v_markers v_corotype v_cleanups
       set_errs set_ctxs set_cur set_static set_smask set_code set_cmask set_strs set_byhash set_objs
       set_hlist set_funcs set_gcpass set_gcint set_gccount set_newint set_newcount set_extfuncs
       set_globals set_maxstack set_maxfields set_exttypes set_left set_subsys set_files set_markers
       set_corotype set_cleanups].
Ltac vsin H :=
  cbn [v_errs v_ctxs v_cur v_static v_smask v_code v_cmask v_strs v_byhash v_objs v_hlist v_funcs
       v_gcpass v_gcint v_gccount v_newint v_newcount v_extfuncs v_globals v_maxstack v_maxfields
       v_exttypes v_left v_subsys v_files v_markers v_corotype v_cleanups
       set_errs set_ctxs set_cur set_static set_smask set_code set_cmask set_strs set_byhash set_objs
       set_hlist set_funcs set_gcpass set_gcint set_gccount set_newint set_newcount set_extfuncs
       set_globals set_maxstack set_maxfields set_exttypes set_left set_subsys set_files set_markers
       set_corotype set_cleanups] in H.
Ltac vsall :=
  cbn [v_errs v_ctxs v_cur v_static v_smask v_code v_cmask v_strs v_byhash v_objs v_hlist v_funcs
       v_gcpass v_gcint v_gccount v_newint v_newcount v_extfuncs v_globals v_maxstack v_maxfields
       v_exttypes v_left v_subsys v_files v_markers v_corotype v_cleanups
       set_errs set_ctxs set_cur set_static set_smask set_code set_cmask set_strs set_byhash set_objs
       set_hlist set_funcs set_gcpass set_gcint set_gccount set_newint set_newcount set_extfuncs
       set_globals set_maxstack set_maxfields set_exttypes set_left set_subsys set_files set_markers
       set_corotype set_cleanups] in *.
Ltac cs := cbn [c_stack c_ip c_parent c_obj c_state set_c_stack set_c_ip set_c_parent set_c_obj set_c_state
                k_vals k_size k_cap k_mask].
Ltac csin H := cbn [c_stack c_ip c_parent c_obj c_state set_c_stack set_c_ip set_c_parent set_c_obj set_c_state
                k_vals k_size k_cap k_mask] in H.
Ltac os := cbn [o_idx o_gc o_size o_buckets o_handles o_ext o_data set_o_idx set_o_gc set_o_size set_o_buckets
                set_o_handles set_o_ext set_o_data].
Ltac osin H := cbn [o_idx o_gc o_size o_buckets o_handles o_ext o_data set_o_idx set_o_gc set_o_size set_o_buckets
                set_o_handles set_o_ext set_o_data] in H.

(** Rewriting a run of a bind. *)
Lemma bind_run {A B} (m : M A) (k : A -> M B) s a s' :
  m s = Ok (a, s') -> mbind m k s = k a s'.
Proof. intro H. unfold mbind. rewrite H. reflexivity. Qed.

Lemma bind_inv {A B} (m : M A) (k : A -> M B) s b s' :
  mbind m k s = Ok (b, s') -> exists a s1, m s = Ok (a, s1) /\ k a s1 = Ok (b, s').
Proof. unfold mbind. destruct (m s) as [[a s1]|u] eqn:E; [|discriminate]. eauto. Qed.

Definition arith (u : ub) : Prop := u = UbSignedOverflow \/ u = UbFloatCast.

(** [hoare P m Q]: from a state with [P], [m] ends with [Q] or stops at one of
    the two arithmetic kinds of undefined behaviour. *)
Definition hoare {A} (P : vm -> Prop) (m : M A) (Q : A -> vm -> Prop) : Prop :=
  forall s, P s -> match m s with Ok (a, s') => Q a s' | Ub u => arith u end.

Lemma h_ret {A} (a : A) (P : vm -> Prop) (Q : A -> vm -> Prop) :
  (forall s, P s -> Q a s) -> hoare P (ret a) Q.
Proof. intros H s Hs. cbn. auto. Qed.

Lemma h_bind {A B} (m : M A) (k : A -> M B) (P : vm -> Prop) R Q :
  hoare P m R -> (forall a, hoare (R a) (k a) Q) -> hoare P (mbind m k) Q.
Proof.
  intros H1 H2 s Hs. unfold mbind. specialize (H1 s Hs).
  destruct (m s) as [[a s1]|u]; auto. apply H2. exact H1.
Qed.

Lemma h_pre {A} (m : M A) (P P' : vm -> Prop) Q :
  hoare P' m Q -> (forall s, P s -> P' s) -> hoare P m Q.
Proof. intros H I s Hs. apply H. auto. Qed.

Lemma h_post {A} (m : M A) (P : vm -> Prop) (Q Q' : A -> vm -> Prop) :
  hoare P m Q' -> (forall a s, Q' a s -> Q a s) -> hoare P m Q.
Proof. intros H I s Hs. specialize (H s Hs). destruct (m s) as [[a s']|u]; auto. Qed.

Lemma h_gets {A} (f : vm -> A) (P : vm -> Prop) (Q : A -> vm -> Prop) :
  (forall s, P s -> Q (f s) s) -> hoare P (gets f) Q.
Proof. intros H s Hs. cbn. auto. Qed.

Lemma h_modify (f : vm -> vm) (P : vm -> Prop) (Q : unit -> vm -> Prop) :
  (forall s, P s -> Q tt (f s)) -> hoare P (modify f) Q.
Proof. intros H s Hs. cbn. auto. Qed.

Lemma h_lift {A} (r : res A) (P : vm -> Prop) (Q : A -> vm -> Prop) :
  (forall s, P s -> match r with Ok a => Q a s | Ub u => arith u end) -> hoare P (lift r) Q.
Proof. intros H s Hs. unfold lift. specialize (H s Hs). destruct r; auto. Qed.

(** [gets] where the continuation needs to know the state read. *)
Lemma h_gets_bind {A B} (f : vm -> A) (k : A -> M B) (P : vm -> Prop) Q :
  (forall s0, P s0 -> hoare (fun s => s = s0) (k (f s0)) Q) -> hoare P (mbind (gets f) k) Q.
Proof. intros H s Hs. unfold mbind, gets. apply (H s Hs). reflexivity. Qed.

Lemma h_arith {A} u (P : vm -> Prop) (Q : A -> vm -> Prop) : arith u -> hoare P (mub u) Q.
Proof. intros H s _. exact H. Qed.

Lemma h_false {A} (m : M A) (P : vm -> Prop) Q : (forall s, P s -> False) -> hoare P m Q.
Proof. intros H s Hs. destruct (H s Hs). Qed.

(** ** Contexts and errors *)

Definition live_ctx (s : vm) (i : Z) : Prop := exists c, znth (v_ctxs s) i = Some (Some c).

Lemma get_ctx_ok s i c : znth (v_ctxs s) i = Some (Some c) -> get_ctx i s = Ok (c, s).
Proof. intro H. unfold get_ctx. rewrite H. reflexivity. Qed.

Lemma put_ctx_ok s i c c' : znth (v_ctxs s) i = Some (Some c) ->
  put_ctx i c' s = Ok (tt, set_ctxs (zupd (v_ctxs s) i (Some c')) s).
Proof. intro H. unfold put_ctx. rewrite H. reflexivity. Qed.

Lemma cur_ctx_ok s c : znth (v_ctxs s) (v_cur s) = Some (Some c) -> cur_ctx s = Ok (c, s).
Proof. intro H. unfold cur_ctx, mbind, gets. apply get_ctx_ok. exact H. Qed.

Lemma mod_cur_ok s c f : znth (v_ctxs s) (v_cur s) = Some (Some c) ->
  mod_cur f s = Ok (tt, set_ctxs (zupd (v_ctxs s) (v_cur s) (Some (f c))) s).
Proof.
  intro H. unfold mod_cur. unfold mbind at 1, gets at 1.
  rewrite (bind_run _ _ _ _ _ (get_ctx_ok _ _ _ H)). apply (put_ctx_ok _ _ _ _ H).
Qed.

Lemma add_error_ok s m : live_ctx s (v_cur s) ->
  exists e, add_error m s = Ok (tt, set_errs (v_errs s ++ [e]) s).
Proof.
  intros [c H]. unfold add_error, add_error_ex.
  rewrite (bind_run _ _ _ _ _ (cur_ctx_ok _ _ H)).
  eexists. unfold mbind, gets, modify. reflexivity.
Qed.

Lemma has_errors_app s e : has_errors (set_errs (v_errs s ++ [e]) s) = true.
Proof. unfold has_errors. vs. destruct (v_errs s); reflexivity. Qed.
