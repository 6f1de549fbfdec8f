(** * Properties C01-C05: the allocator

    [history hdr m L] (MemSpec.v) ranges over every sequence of allocator
    calls with an adversarial host [malloc]; [L] is the ledger of blocks the
    API handed out and did not get back. *)
From Verif Require Import Base MemModel MemSpec MemProofs.

(** C01: the reported usage is the sum over exactly the outstanding blocks of
    requested size plus one header; and the blocks the allocator believes
    live are exactly those of the ledger, with the requested sizes. *)
Theorem C01_usage_exact : forall hdr m L,
  0 < hdr < W32 -> history hdr m L ->
  m_usage m = total hdr L /\ NoDup (map fst L) /\
  (forall a, (exists d, contents m a = Some d) <-> live L a) /\
  (forall a s, In (a, s) L -> exists d, contents m a = Some d /\ zlen d = s).
Proof. exact usage_exact. Qed.
Print Assumptions C01_usage_exact.

(** C01 (no call of a conforming caller is ever undefined). *)
Theorem C01_no_undefined_behaviour : forall hdr m L o,
  0 < hdr < W32 -> history hdr m L -> valid L o -> exists m' r, step hdr m o = Ok (m', r).
Proof. exact history_progress. Qed.
Print Assumptions C01_no_undefined_behaviour.

(** C01 (peak): at any later time the peak is at least the usage then and now. *)
Theorem C01_peak : forall hdr m L m' L',
  0 < hdr < W32 -> history hdr m L -> continues hdr m L m' L' ->
  m_usage m <= m_peak m' /\ m_usage m' <= m_peak m'.
Proof. exact peak_bound. Qed.
Print Assumptions C01_peak.

(** C02: usage never exceeds a fixed limit. *)
Theorem C02_limit_respected : forall hdr max m L,
  0 < hdr < W32 -> history_limit hdr max m L -> m_usage m <= max /\ m_max m = max.
Proof. exact limit_respected. Qed.
Print Assumptions C02_limit_respected.

(** C02: a refused call changes nothing but the failure flag. *)
Theorem C02_refusal_harmless : forall hdr m L o m',
  0 < hdr < W32 -> history hdr m L -> valid L o -> step hdr m o = Ok (m', Jump) ->
  m_usage m' = m_usage m /\ m_peak m' = m_peak m /\ m_max m' = m_max m /\
  m_head m' = m_head m /\ (forall a, m_heap m' a = m_heap m a) /\ m_freed m' = m_freed m /\
  m_fail m' = true.
Proof. exact refusal_harmless. Qed.
Print Assumptions C02_refusal_harmless.

(** C02: a request is refused exactly when it cannot be represented in 32
    bits, would pass the limit, or the host has no memory. *)
Theorem C02_refused_iff : forall hdr m L size o m' r,
  0 < hdr < W32 -> history hdr m L -> valid L (OMalloc size o) ->
  step hdr m (OMalloc size o) = Ok (m', r) ->
  (r = Jump <->
     W32 <= size + hdr \/ (size <> 0 /\ (m_max m < m_usage m + (size + hdr) \/ o = None))).
Proof. exact malloc_outcome. Qed.
Print Assumptions C02_refused_iff.

(** C03: contents survive reallocation up to the smaller size; the old block
    is gone and no other block changes. *)
Theorem C03_realloc_contents : forall hdr m L a size o m' b,
  0 < hdr < W32 -> history hdr m L -> valid L (ORealloc (Some a) size o) ->
  step hdr m (ORealloc (Some a) size o) = Ok (m', Ret (Some b)) ->
  exists old new, contents m a = Some old /\ contents m' b = Some new /\ zlen new = size /\
    (forall i, 0 <= i < Z.min (zlen old) size -> znth new i = znth old i) /\
    contents m' a = None /\
    (forall c, c <> a -> c <> b -> contents m' c = contents m c).
Proof. exact realloc_contents. Qed.
Print Assumptions C03_realloc_contents.

(** C03: a failing reallocation leaves every block, including the old one. *)
Theorem C03_realloc_failure : forall hdr m L p size o m',
  0 < hdr < W32 -> history hdr m L -> valid L (ORealloc p size o) ->
  step hdr m (ORealloc p size o) = Ok (m', Jump) ->
  forall a, contents m' a = contents m a.
Proof. exact realloc_fail. Qed.
Print Assumptions C03_realloc_failure.

(** C03: reallocating NULL is allocating. *)
Theorem C03_realloc_null : forall hdr m size o,
  step hdr m (ORealloc None size o) = step hdr m (OMalloc size o).
Proof. reflexivity. Qed.
Print Assumptions C03_realloc_null.

(** C03 (companion): a duplicated string holds the same bytes and a zero. *)
Theorem C03_strdup_contents : forall hdr m L s o m' a,
  0 < hdr < W32 -> history hdr m L -> valid L (OStrdup (Some s) o) ->
  step hdr m (OStrdup (Some s) o) = Ok (m', Ret (Some a)) ->
  contents m' a = Some (s ++ [0]).
Proof. exact strdup_contents. Qed.
Print Assumptions C03_strdup_contents.

(** C04: array allocations hold exactly size*count bytes (in unbounded
    arithmetic), or fail. *)
Theorem C04_array_exact : forall hdr m L size count p o m' a,
  0 < hdr < W32 -> history hdr m L ->
  (valid L (OMallocArray size count o) /\ step hdr m (OMallocArray size count o) = Ok (m', Ret (Some a))) \/
  (valid L (OReallocArray p size count o) /\ step hdr m (OReallocArray p size count o) = Ok (m', Ret (Some a))) ->
  exists d, contents m' a = Some d /\ zlen d = size * count.
Proof. exact array_exact. Qed.
Print Assumptions C04_array_exact.

(** C05: the emergency teardown hands every outstanding block back exactly
    once and leaves none; it needs as many rounds as there are blocks. *)
Theorem C05_teardown : forall hdr m L,
  0 < hdr < W32 -> history hdr m L ->
  exists m', teardown (length L) m = Ok m' /\
    m_freed m' = rev (map fst L) ++ m_freed m /\ NoDup (map fst L) /\
    (forall a, In a (map fst L) <-> live L a) /\
    m_head m' = None /\ (forall a, contents m' a = None).
Proof. exact teardown_history. Qed.
Print Assumptions C05_teardown.

(** Non-vacuity: a history with three blocks, one of them freed from the
    middle of the list and one reallocated, ending in a refused request. *)
Definition ex_ops : list op :=
  [ OMalloc 4 (Some (1000, [1;2;3;4]));
    OMalloc 2 (Some (2000, [5;6]));
    OMalloc 3 (Some (3000, [7;8;9]));
    OFree (Some 2000);
    ORealloc (Some 1000) 6 (Some (2000, [0;0;0;0;0;0]));
    OMallocArray 2 2 (Some (1000, [0;0;0;0])) ].

Fixpoint run_ops (hdr : Z) (m : mem) (L : ledger) (l : list op) : option (mem * ledger) :=
  match l with
  | [] => Some (m, L)
  | o :: r =>
      match step hdr m o with
      | Ok (m', q) => run_ops hdr m' (ledger_step L o q) r
      | Ub _ => None
      end
  end.

Definition ex_final := run_ops 32 (mem_init 150) [] ex_ops.

Example ex_final_value :
  match ex_final with
  | Some (m, L) =>
      L = [(1000, 4); (2000, 6); (3000, 3)] /\ m_usage m = 109 /\
      contents m 2000 = Some [1;2;3;4;0;0] /\ contents m 3000 = Some [7;8;9] /\
      match step 32 m (OMalloc 20 (Some (77, []))) with
      | Ok (_, Jump) => True | _ => False end
  | None => False
  end.
Proof. vm_compute. repeat split. Qed.

(** Executable form of [valid], for examples. *)
Definition liveb (L : ledger) (a : addr) : bool := existsb (fun p => fst p =? a) L.
Definition is_u32b (z : Z) := (0 <=? z) && (z <? W32).
Definition host_okb (L : ledger) (size : Z) (o : host) : bool :=
  match o with None => true | Some (a, junk) => negb (liveb L a) && (zlen junk =? size) end.
Definition ptr_okb (L : ledger) (p : option addr) : bool :=
  match p with None => true | Some a => liveb L a end.
Definition validb (L : ledger) (o : op) : bool :=
  match o with
  | OMalloc s h => is_u32b s && host_okb L s h
  | OFree p => ptr_okb L p
  | ORealloc p s h => is_u32b s && ptr_okb L p && host_okb L s h
  | OMallocArray s c h => is_u32b s && is_u32b c && negb (s =? 0) && host_okb L (s * c) h
  | OReallocArray p s c h =>
      is_u32b s && is_u32b c && negb (s =? 0) && ptr_okb L p && host_okb L (s * c) h
  | OStrdup s h =>
      match s with
      | None => true
      | Some s => (zlen s + 1 <? W32) && host_okb L (zlen s + 1) h
      end
  | OSetMax z => is_u32b z
  end.

Lemma liveb_live L a : liveb L a = true <-> live L a.
Proof.
  unfold liveb, live. rewrite existsb_exists. split.
  - intros [[b s] [H E]]. cbn in E. apply Z.eqb_eq in E. subst. eauto.
  - intros [s H]. exists (a, s). split; [exact H|apply Z.eqb_refl].
Qed.

Lemma validb_valid L o : validb L o = true -> valid L o.
Proof.
  assert (U : forall z, is_u32b z = true -> is_u32 z) by (unfold is_u32b, is_u32; intros; lia).
  assert (P : forall p, ptr_okb L p = true -> ptr_ok L p).
  { intros [a|]; cbn; [apply liveb_live|auto]. }
  assert (H : forall s h, host_okb L s h = true -> host_ok L s h).
  { intros s [[a j]|]; cbn; [|auto]. rewrite andb_true_iff, negb_true_iff. intros [A B].
    split; [|lia]. intros C. apply liveb_live in C. congruence. }
  destruct o; cbn [valid validb]; rewrite ?andb_true_iff, ?negb_true_iff;
    try (intuition auto; lia).
  destruct s; cbn; rewrite ?andb_true_iff; intuition auto; lia.
Qed.

Example ex_final_history : exists m L, ex_final = Some (m, L) /\ history_limit 32 150 m L.
Proof.
  pose (okb := fix ok m L l := match l with
        | [] => true
        | o :: r => validb L o && (match o with OSetMax _ => false | _ => true end) &&
                    match step 32 m o with Ok (m2, q) => ok m2 (ledger_step L o q) r | Ub _ => false end
        end).
  assert (G : forall l m L, history_limit 32 150 m L -> okb m L l = true ->
     exists m' L', run_ops 32 m L l = Some (m', L') /\ history_limit 32 150 m' L').
  { induction l as [|o l IH]; intros m L H Hok; cbn [run_ops].
    - eauto.
    - cbn [okb] in Hok. rewrite !andb_true_iff in Hok. destruct Hok as [[V N] R].
      destruct (step 32 m o) as [[m2 q]|] eqn:S; [|discriminate].
      apply IH; [|exact R]. econstructor; eauto.
      + apply validb_valid. exact V.
      + intros z ->. discriminate. }
  apply G; [constructor; unfold is_u32, W32; lia|vm_compute; reflexivity].
Qed.
