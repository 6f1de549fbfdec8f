(** * CutProofs: a step of the loader stops where the file does *)
From Verif Require Import Base BaseFacts State SaveModel CutSpec.
From Coq Require Import ZArith List Lia.
Import ListNotations.
Open Scope Z_scope.

(** What is left of the file after a step, and the same outcome with something
    else left. *)
Definition ending {A} (o : lout A) : option bytes := match o with LDone _ r _ | LFail r _ => Some r | LCat => None end.
Definition put {A} (q : bytes) (o : lout A) : lout A := match o with LDone a _ s => LDone a q s | LFail _ s => LFail q s | LCat => LCat end.
(** A step has read a piece, and what follows does not matter, and with less it
    would have read everything; or it has read everything. *)
Definition whole {A} (m : L A) (b : bytes) (s : vm) (o : lout A) (r : bytes) : Prop :=
  exists p, b = p ++ r /\ (forall q, m (p ++ q) s = Ok (put q o)) /\
    forall p' o' r', beginning p' p -> m p' s = Ok o' -> ending o' = Some r' -> r' = [].
Definition cut {A} (m : L A) : Prop := forall b s o r, m b s = Ok o -> ending o = Some r -> whole m b s o r \/ r = [].

Lemma beginning_nil p : ~ beginning p [].
Proof. intros (c & q & E). destruct p; discriminate. Qed.
Lemma beginning_app p x y : beginning p (x ++ y) -> beginning p x \/ exists p', p = x ++ p' /\ beginning p' y.
Proof.
  revert p. induction x as [|c x IH]; intros p H; [right; exists p; auto|]. destruct H as (d & q & E). destruct p as [|e p].
  - left. exists c, x. reflexivity.
  - cbn [app] in E. injection E as <- E. destruct (IH p (ex_intro _ d (ex_intro _ q E))) as [(d' & q' & ->)|(p' & -> & B)].
    + left. exists d', q'. reflexivity.
    + right. exists p'. auto.
Qed.

Lemma cut_rest {A} (m : L A) : cut m -> forall s o r, m [] s = Ok o -> ending o = Some r -> r = [].
Proof. intros C s o r H G. destruct (C _ _ _ _ H G) as [(p & E & _)|]; auto. destruct p, r; auto; discriminate. Qed.

Lemma cut_bind {A B} (m : L A) (f : A -> L B) : cut m -> (forall a, cut (f a)) -> cut (lbind m f).
Proof.
  intros Cm Cf b s c r H G. unfold lbind in H. destruct (m b s) as [[a r1 s1|r1 s1|]|] eqn:Em; try discriminate.
  - destruct (Cm _ _ _ _ Em eq_refl) as [(p & -> & L1 & B1)| ->]; [|right; exact (cut_rest _ (Cf a) _ _ _ H G)].
    destruct (Cf _ _ _ _ _ H G) as [(p2 & -> & L2 & B2)| ->]; [|right; reflexivity]. left. exists (p ++ p2). split; [apply app_assoc|]. split.
    + intro q. unfold lbind. rewrite <- app_assoc, L1. apply L2.
    + intros p' o' r' Bg X R. unfold lbind in X. destruct (beginning_app _ _ _ Bg) as [Z|(p3 & -> & Z)].
      * destruct (m p' s) as [[a3 r3 s3|r3 s3|]|] eqn:E3; try discriminate.
        -- rewrite (B1 _ _ _ Z E3 eq_refl) in X. exact (cut_rest _ (Cf a3) _ _ _ X R).
        -- injection X as <-. injection R as <-. exact (B1 _ _ _ Z E3 eq_refl).
        -- injection X as <-. discriminate.
      * rewrite L1 in X. exact (B2 _ _ _ Z X R).
  - injection H as <-. injection G as <-. destruct (Cm _ _ _ _ Em eq_refl) as [(p & -> & L1 & B1)| ->]; [left|right; reflexivity].
    exists p. split; [reflexivity|]. split; [intro q; unfold lbind; rewrite L1; reflexivity|].
    intros p' o' r' Bg X R. unfold lbind in X. destruct (m p' s) as [[a3 r3 s3|r3 s3|]|] eqn:E3; try discriminate.
    + rewrite (B1 _ _ _ Bg E3 eq_refl) in X. exact (cut_rest _ (Cf a3) _ _ _ X R).
    + injection X as <-. injection R as <-. exact (B1 _ _ _ Bg E3 eq_refl).
    + injection X as <-. discriminate.
  - injection H as <-. discriminate.
Qed.
Lemma cut_none {A} (m : L A) : (forall b s, match m b s with Ok (LDone a r s') => r = b /\ forall q, m q s = Ok (LDone a q s') | Ok (LFail r s') => r = b /\ forall q, m q s = Ok (LFail q s') | _ => True end) -> cut m.
Proof.
  intros X b s o r H G. left. specialize (X b s). rewrite H in X. exists []. destruct o; try discriminate; injection G as <-; destruct X as [-> X];
    (split; [reflexivity|]; split; [exact X|]; intros p' o' r' Z; destruct (beginning_nil _ Z)).
Qed.
Lemma cut_vm {A} (m : M A) : cut (lvm m).
Proof. apply cut_none. intros b s. unfold lvm. destruct (m s) as [[x s1]|]; auto. Qed.
Lemma cut_ret {A} (a : A) : cut (lret a). Proof. apply cut_none. cbn. auto. Qed.
Lemma cut_fail {A} : cut (@lfail A). Proof. apply cut_none. cbn. auto. Qed.
Lemma cut_cat {A} : cut (@lcat A). Proof. apply cut_none. cbn. auto. Qed.
Lemma cut_error {A} t : cut (@lerror A t). Proof. apply cut_bind; [apply cut_vm|intro; apply cut_fail]. Qed.
Lemma firstn_exact (p q : bytes) n : n = length p -> firstn n (p ++ q) = p /\ skipn n (p ++ q) = q.
Proof.
  intros ->. split.
  - rewrite firstn_app, firstn_all, Nat.sub_diag. cbn [firstn]. apply app_nil_r.
  - rewrite skipn_app, skipn_all, Nat.sub_diag. reflexivity.
Qed.
Lemma beginning_len p b : beginning p b -> (length p < length b)%nat.
Proof. intros (c & q & ->). rewrite app_length. cbn [length]. lia. Qed.
Lemma cut_take n : cut (take n).
Proof.
  intros b s o r H G. unfold take in H. destruct (Z.leb_spec n (zlen b)); injection H as <-; injection G as <-; [|right; reflexivity]. left. unfold zlen in *.
  exists (firstn (Z.to_nat n) b). split; [symmetry; apply firstn_skipn|].
  assert (Z.to_nat n = length (firstn (Z.to_nat n) b)) as Ln by (rewrite firstn_length; lia). split.
  - intro q. unfold take. replace (n <=? zlen (firstn (Z.to_nat n) b ++ q)) with true.
    + destruct (firstn_exact (firstn (Z.to_nat n) b) q (Z.to_nat n) Ln) as [-> ->]. reflexivity.
    + symmetry. apply Z.leb_le. unfold zlen. rewrite app_length. lia.
  - intros p o' r' Z E R. apply beginning_len in Z. unfold take in E. destruct (Z.leb_spec n (zlen p)); [unfold zlen in *; lia|]. injection E as <-. injection R as <-. reflexivity.
Qed.
Lemma cut_reader {X} (f : bytes -> X * nat) : reader f -> cut (fun b s => let '(d, n) := f b in Ok (LDone d (skipn n b) s)).
Proof.
  intros R b s o r H G. destruct (f b) as [d n] eqn:E. injection H as <-. injection G as <-. destruct (R _ _ _ E) as [(Ln & Lo & Sh)|Ln]; [left|right; apply skipn_all2; exact Ln].
  exists (firstn n b). split; [symmetry; apply firstn_skipn|]. assert (n = length (firstn n b)) as Q by (rewrite firstn_length; lia). split.
  - intro q. rewrite Lo. destruct (firstn_exact (firstn n b) q n Q) as [_ ->]. reflexivity.
  - intros p o' r' Z E2 R2. specialize (Sh p Z). destruct (f p) as [d' n'] eqn:E3. injection E2 as <-. injection R2 as <-. apply skipn_all2. exact Sh.
Qed.
Lemma cut_times {A} n (m : L A) : cut m -> cut (times n m).
Proof.
  intro C. induction n as [|n IH]; cbn [times]; [apply cut_ret|]. apply cut_bind; [exact C|]. intro. apply cut_bind; [exact IH|]. intro. apply cut_ret.
Qed.
Lemma cut_each n (m : Z -> L unit) : (forall i, cut (m i)) -> forall i, cut (each n i m).
Proof. intro C. induction n as [|n IH]; intro i; cbn [each]; [apply cut_ret|]. apply cut_bind; auto. Qed.
(** A failure that is only noted. *)
Lemma cut_noted {A} (m : L A) (f : L A) : cut m -> (forall b s, match f b s with Ok (LDone a r s') => r = b /\ forall q, f q s = Ok (LDone a q s') | Ok (LFail r s') => r = b /\ forall q, f q s = Ok (LFail q s') | _ => True end) ->
  cut (fun b s => match m b s with Ok (LFail b' s') => f b' s' | r => r end).
Proof.
  intros C X b s o r H G.
  assert (forall p' o' r', (forall o2 r2, m p' s = Ok o2 -> ending o2 = Some r2 -> r2 = []) ->
    match m p' s with Ok (LFail b' s') => f b' s' | r => r end = Ok o' -> ending o' = Some r' -> r' = []) as Short.
  { intros p' o' r' K E R. destruct (m p' s) as [[a3 r3 s3|r3 s3|]|] eqn:E3; try discriminate.
    - injection E as <-. exact (K _ _ eq_refl R).
    - specialize (X r3 s3). rewrite E in X. rewrite (K _ _ eq_refl eq_refl) in X. destruct o'; try discriminate; injection R as <-; destruct X as [-> _]; reflexivity.
    - injection E as <-. discriminate. }
  destruct (m b s) as [[a r1 s1|r1 s1|]|] eqn:Em; try discriminate.
  - injection H as <-. injection G as <-. destruct (C _ _ _ _ Em eq_refl) as [(p & -> & L1 & B1)| ->]; [left|right; reflexivity].
    exists p. split; [reflexivity|]. split; [intro q; rewrite L1; reflexivity|]. intros p' o' r' Z. apply Short. intros o2 r2. exact (B1 _ _ _ Z).
  - specialize (X r1 s1). rewrite H in X. destruct (C _ _ _ _ Em eq_refl) as [(p & -> & L1 & B1)| ->].
    + left. exists p. destruct o; try discriminate; injection G as <-; destruct X as [-> X];
        (split; [reflexivity|]; split; [intro q; rewrite L1; apply X|]; intros p' o' r' Z; apply Short; intros o2 r2; exact (B1 _ _ _ Z)).
    + right. destruct o; try discriminate; injection G as <-; destruct X as [-> _]; reflexivity.
  - injection H as <-. discriminate.
Qed.

Ltac cu := repeat first
  [ assumption | apply cut_bind; [|intro] | apply cut_vm | apply cut_ret | apply cut_fail | apply cut_cat | apply cut_error | apply cut_take
  | apply cut_times | apply cut_each; intro
  | match goal with |- cut (if ?b then _ else _) => destruct b | |- cut (match ?x with _ => _ end) => destruct x end ].

Lemma cut_r32 : cut r32. Proof. unfold r32. cu. Qed.
Lemma cut_r8 : cut r8. Proof. unfold r8. cu. Qed.
Lemma cut_value : cut rvalue. Proof. pose proof cut_r32. unfold rvalue. cu. Qed.
Lemma cut_string : cut load_string. Proof. pose proof cut_r32. unfold load_string. cu. Qed.
Lemma cut_string_in n : cut (load_string_in n). Proof. pose proof cut_r32. unfold load_string_in. cu. Qed.
Lemma cut_alloc a b : cut (alloc_array a b). Proof. unfold alloc_array. cu. Qed.
Ltac cv := unfold lget, lmod, llift; repeat first [apply cut_r32 | apply cut_r8 | apply cut_value | apply cut_string | apply cut_string_in | apply cut_alloc | progress cu].
Lemma cut_instructions : cut load_instructions. Proof. unfold load_instructions. cv. Qed.
Lemma cut_errors : cut load_errors. Proof. unfold load_errors. cv. Qed.
Lemma cut_statics : cut load_statics. Proof. unfold load_statics. cv. Qed.
Lemma cut_stack i : cut (load_stack i). Proof. unfold load_stack. cv. Qed.
Lemma cut_context i c : cut (load_context i c). Proof. pose proof (cut_stack i). unfold load_context. cv. Qed.
Lemma cut_slot i e : cut (set_str_slot i e). Proof. unfold set_str_slot. cv. Qed.
Lemma cut_string_entry : cut load_string_entry. Proof. pose proof cut_slot as X. unfold load_string_entry. cv; apply X. Qed.
Lemma cut_strings : cut load_strings. Proof. pose proof cut_string_entry. unfold load_strings. cv. Qed.
Lemma cut_gc : cut load_gc. Proof. unfold load_gc. cv. Qed.
Lemma cut_extfunc : cut load_extfunc. Proof. unfold load_extfunc. cv. Qed.
Lemma cut_put i f : cut (put_function i f). Proof. unfold put_function. cv. Qed.
Lemma cut_function m i : cut (load_function m i). Proof. pose proof cut_put as X. unfold load_function. cv; apply X. Qed.
Lemma cut_functions : cut load_functions. Proof. pose proof cut_extfunc. pose proof cut_function as X. unfold load_functions. cv; apply X. Qed.
Lemma cut_element i : cut (load_element i). Proof. unfold load_element. cv. Qed.
Lemma cut_object i : cut (load_object i). Proof. pose proof (cut_element i). unfold load_object. cv. Qed.
Lemma cut_object_entry : cut load_object_entry. Proof. pose proof cut_object as X. unfold load_object_entry. cv; apply X. Qed.
Lemma cut_objects : cut load_objects. Proof. pose proof cut_object_entry. unfold load_objects. cv. Qed.
Lemma cut_globals : cut load_globals. Proof. unfold load_globals. cv. Qed.
Lemma cut_type i : cut (load_type i). Proof. unfold load_type. cv. Qed.
Lemma cut_check n i : cut (check_type n i). Proof. unfold check_type. cv. Qed.
Lemma cut_types : cut load_types. Proof. pose proof cut_type as X. pose proof cut_check as Y. unfold load_types. cv; first [apply X | apply Y]. Qed.
Lemma cut_files : cut load_files. Proof. unfold load_files. cv. Qed.
Lemma cut_markers : cut load_markers. Proof. unfold load_markers, rmarker. cv. Qed.

Section Host.
Variable host_load : Z -> Z -> bytes -> option Z * nat.
Variable sub_load : bytes -> bytes -> nat.
Hypothesis Hh : forall t i, reader (host_load t i).
Hypothesis Hs : forall n, reader (fun b => (tt, sub_load n b)).

Lemma cut_subsystem : cut (load_subsystem sub_load).
Proof. pose proof (fun n => cut_reader _ (Hs n)) as X. unfold load_subsystem. cv; apply X. Qed.
Lemma cut_subsystems : cut (load_subsystems sub_load).
Proof. pose proof cut_subsystem. unfold load_subsystems. cv. Qed.
Lemma cut_coroutine i : cut (load_coroutine i).
Proof.
  unfold load_coroutine. cv. apply (cut_noted (load_context _ true)); [apply cut_context|]. intros b s. unfold lvm. destruct (add_error _ s) as [[u s1]|]; auto.
Qed.
Lemma cut_external i : cut (load_external host_load i).
Proof. pose proof (cut_coroutine i). pose proof (fun t => cut_reader _ (Hh t i)) as X. unfold load_external. cv; apply X. Qed.
Lemma cut_externals : cut (load_externals host_load).
Proof. unfold load_externals. apply cut_bind; [apply cut_vm|intro s]. apply cut_each. exact cut_external. Qed.

(** *** The last section *)

(** A step that fails if there is less than it needs. *)
Definition firm {A} (m : L A) : Prop := forall b s a r s', m b s = Ok (LDone a r s') ->
  exists p, b = p ++ r /\ (forall q, m (p ++ q) s = Ok (LDone a q s')) /\ forall p' a' r' s2, beginning p' p -> m p' s <> Ok (LDone a' r' s2).
Definition stops {A} (m : L A) (m' : nat -> L A) : Prop := forall b s a r s', m b s = Ok (LDone a r s') ->
  exists p, b = p ++ r /\ forall n p' a' r' s2, beginning p' p -> m' n p' s <> Ok (LDone a' r' s2).

Lemma bind_done {A B} (m : L A) (f : A -> L B) b s c r s' : lbind m f b s = Ok (LDone c r s') -> exists a r1 s1, m b s = Ok (LDone a r1 s1) /\ f a r1 s1 = Ok (LDone c r s').
Proof. unfold lbind. destruct (m b s) as [[a r1 s1| |]|]; try discriminate. eauto 6. Qed.
Lemma firm_vm {A} (m : M A) : firm (lvm m).
Proof.
  intros b s a r s' H. unfold lvm in *. destruct (m s) as [[x s1]|] eqn:E; [|discriminate]. injection H as <- <- <-.
  exists []. split; [reflexivity|]. split; [reflexivity|]. intros p' a' r' s2 G. destruct (beginning_nil _ G).
Qed.
Lemma firm_bind {A B} (m : L A) (f : A -> L B) : firm m -> (forall a, firm (f a)) -> firm (lbind m f).
Proof.
  intros Fm Ff b s c r s' H. apply bind_done in H. destruct H as (a & r1 & s1 & E1 & E2). destruct (Fm _ _ _ _ _ E1) as (p & -> & L1 & B1). destruct (Ff _ _ _ _ _ _ E2) as (p2 & -> & L2 & B2).
  exists (p ++ p2). split; [apply app_assoc|]. split; [intro q; unfold lbind; rewrite <- app_assoc, L1; apply L2|].
  intros p' a' r' s2 G X. apply bind_done in X. destruct X as (a3 & r3 & s3 & X1 & X2). destruct (beginning_app _ _ _ G) as [Z|(p3 & -> & Z)]; [exact (B1 _ _ _ _ Z X1)|].
  rewrite L1 in X1. injection X1 as <- <- <-. exact (B2 _ _ _ _ Z X2).
Qed.
Lemma firm_take n : firm (take n).
Proof.
  intros b s a r s' H. destruct (cut_take n b s _ r H eq_refl) as [(p & -> & L1 & _)|E].
  - exists p. split; [reflexivity|]. split; [exact L1|]. intros p' a' r' s2 G X. apply beginning_len in G. specialize (L1 []). rewrite app_nil_r in L1.
    unfold take in *. destruct (Z.leb_spec n (zlen p)); [|discriminate]. destruct (Z.leb_spec n (zlen p')); [|discriminate]. injection L1 as _ L1 _.
    assert (length (skipn (Z.to_nat n) p) = 0)%nat as Z0 by (rewrite L1; reflexivity). rewrite skipn_length in Z0. unfold zlen in *. lia.
  - subst r. unfold take in H. destruct (Z.leb_spec n (zlen b)); [|discriminate]. injection H as <- Hr <-. exists b. split; [symmetry; apply app_nil_r|].
    assert (length (skipn (Z.to_nat n) b) = 0)%nat as Z0 by (rewrite Hr; reflexivity). rewrite skipn_length in Z0. unfold zlen in *. split.
    + intro q. unfold take, zlen. rewrite app_length. replace (n <=? Z.of_nat (length b + length q)) with true by (symmetry; apply Z.leb_le; lia).
      destruct (Nat.le_gt_cases (Z.to_nat n) (length b)); [|lia]. rewrite firstn_app, skipn_app, Hr. replace (Z.to_nat n - length b)%nat with 0%nat by lia. cbn. rewrite app_nil_r. reflexivity.
    + intros p' a' r' s2 G X. apply beginning_len in G. unfold take, zlen in X. destruct (Z.leb_spec n (Z.of_nat (length p'))); [lia|discriminate].
Qed.
Lemma firm_value : firm rvalue.
Proof. unfold rvalue, r32. repeat (apply firm_bind; [|intro]); first [apply firm_take | apply (firm_vm (ret _))]. Qed.
Lemma stops_bind {A B} (m : L A) (f : A -> L B) (g : nat -> A -> L B) : firm m -> (forall a, stops (f a) (fun n => g n a)) -> stops (lbind m f) (fun n => lbind m (g n)).
Proof.
  intros Fm Ff b s c r s' H. apply bind_done in H. destruct H as (a & r1 & s1 & E1 & E2). destruct (Fm _ _ _ _ _ E1) as (p & -> & L1 & B1). destruct (Ff _ _ _ _ _ _ E2) as (p2 & -> & B2).
  exists (p ++ p2). split; [apply app_assoc|].
  intros n p' a' r' s2 G X. apply bind_done in X. destruct X as (a3 & r3 & s3 & X1 & X2). destruct (beginning_app _ _ _ G) as [Z|(p3 & -> & Z)]; [exact (B1 _ _ _ _ Z X1)|].
  rewrite L1 in X1. injection X1 as <- <- <-. exact (B2 _ _ _ _ _ Z X2).
Qed.
Lemma stops_vm {A} (m : M A) : stops (lvm m) (fun _ => lvm m).
Proof. intros b s a r s' H. destruct (firm_vm m _ _ _ _ _ H) as (p & E & _ & B). eauto. Qed.
Lemma stops_never {A} (m : L A) m' : (forall b s a r s', m b s <> Ok (LDone a r s')) -> stops m m'.
Proof. intros N b s a r s' H. destruct (N _ _ _ _ _ H). Qed.
Lemma firm_never {A} (m : L A) : (forall b s a r s', m b s <> Ok (LDone a r s')) -> firm m.
Proof. intros N b s a r s' H. destruct (N _ _ _ _ _ H). Qed.
Lemma error_never {A} t : forall b s (a : A) r s', lerror t b s <> Ok (LDone a r s').
Proof. intros b s a r s' H. apply bind_done in H. destruct H as (x & r1 & s1 & _ & H). discriminate. Qed.

Lemma chain_stops f : forall cur last, stops (load_chain f cur last) (fun n => load_chain n cur last).
Proof.
  induction f as [|f IH]; intros cur last; [apply stops_never; discriminate|].
  assert (stops (load_chain (S f) cur last) (fun n => load_chain (S n) cur last)) as X.
  - cbn [load_chain]. apply stops_bind; [apply firm_value|]. intro v. apply stops_bind; [apply firm_vm|]. intro s0. destruct (chain_context v s0) as [x|]; [|apply stops_never, error_never].
    apply stops_bind; [apply firm_vm|]. intro c. apply stops_bind; [destruct (_ =? _); [apply (firm_vm (ret tt))|apply firm_bind; [apply firm_vm|intro; apply firm_vm]]|]. intro.
    apply stops_bind; [|intro; destruct (_ =? T_NIL); [apply stops_vm|apply IH]].
    destruct last as [e|]; [|apply (firm_vm (ret tt))]. apply firm_bind; [apply firm_vm|]. intro ec. destruct (c_parent ec); [apply firm_never, error_never|].
    destruct (e =? 0); [apply firm_never, error_never|apply firm_vm].
  - intros b s a r s' H. destruct (X _ _ _ _ _ H) as (p & E & N). exists p. split; [exact E|]. intros [|n]; [discriminate|exact (N n)].
Qed.

(** *** The whole *)

Definition sections : L unit :=
  h <! take 5 ;;
  if negb (bytes_eqb h MAGIC) then lerror (bs "Wrong binary format.")
  else
    v <! r32 ;;
    if negb (v =? VERSION) then lerror (bs "Wrong binary VM version.")
    else
      load_instructions ;+ load_errors ;+ load_statics ;+ load_context 0 false ;+ load_strings ;+ load_gc ;+ load_functions ;+
      load_objects ;+ load_globals ;+ load_types ;+ load_subsystems sub_load ;+ load_externals host_load ;+ load_files ;+ load_markers.
Lemma cut_sections : cut sections.
Proof.
  unfold sections. apply cut_bind; [apply cut_take|]. intro h. destruct (negb _); [apply cut_error|]. apply cut_bind; [apply cut_r32|]. intro v. destruct (negb _); [apply cut_error|].
  pose proof cut_instructions. pose proof cut_errors. pose proof cut_statics. pose proof cut_context. pose proof cut_strings. pose proof cut_gc. pose proof cut_functions.
  pose proof cut_objects. pose proof cut_globals. pose proof cut_types. pose proof cut_subsystems. pose proof cut_externals. pose proof cut_files. pose proof cut_markers.
  do 13 (apply cut_bind; [auto|intro]). assumption.
Qed.
Lemma bind_assoc {A B C} (m : L A) (f : A -> L B) (g : B -> L C) b s : lbind (lbind m f) g b s = lbind m (fun a => lbind (f a) g) b s.
Proof. unfold lbind. destruct (m b s) as [[| |]|]; reflexivity. Qed.
Lemma bind_ext {A B} (m : L A) (f g : A -> L B) b s : (forall a b s, f a b s = g a b s) -> lbind m f b s = lbind m g b s.
Proof. intro X. unfold lbind. destruct (m b s) as [[| |]|]; auto. Qed.
Lemma load_sections b s : load host_load sub_load b s = lbind sections (fun _ => load_active) b s.
Proof.
  unfold sections, load. rewrite bind_assoc. apply bind_ext. intros h b1 s1. destruct (negb _).
  { unfold lerror. rewrite bind_assoc. apply bind_ext. reflexivity. }
  rewrite bind_assoc. apply bind_ext. intros v b2 s2. destruct (negb _).
  { unfold lerror. rewrite bind_assoc. apply bind_ext. reflexivity. }
  repeat (rewrite bind_assoc; apply bind_ext; intros _ ? ?). reflexivity.
Qed.

Lemma active_nil s a r s' : load_active [] s <> Ok (LDone a r s').
Proof. discriminate. Qed.
Lemma load_cut b s r s' : load host_load sub_load b s = Ok (LDone tt r s') ->
  exists p, b = p ++ r /\ forall p' a' r' s2, beginning p' p -> load host_load sub_load p' s <> Ok (LDone a' r' s2).
Proof.
  rewrite load_sections. intro H. apply bind_done in H. destruct H as ([] & r1 & s1 & E1 & E2).
  destruct (cut_sections _ _ _ _ E1 eq_refl) as [(p1 & -> & L1 & B1)| ->]; [|destruct (active_nil _ _ _ _ E2)].
  destruct (chain_stops _ _ _ _ _ _ _ _ E2) as (p2 & -> & B2). exists (p1 ++ p2). split; [apply app_assoc|].
  intros p' a' r' s2 G X. rewrite load_sections in X. apply bind_done in X. destruct X as ([] & r3 & s3 & X1 & X2). destruct (beginning_app _ _ _ G) as [Z|(p3 & -> & Z)].
  - rewrite (B1 _ _ _ Z X1 eq_refl) in X2. exact (active_nil _ _ _ _ X2).
  - rewrite L1 in X1. injection X1 as <- <-. exact (B2 _ _ _ _ _ Z X2).
Qed.
End Host.
