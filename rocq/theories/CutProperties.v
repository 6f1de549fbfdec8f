(** * CutProperties: files that are not whole are refused (C61) *)
From Verif Require Import Base BaseFacts TableModel State MonadFacts StackModel StrModel ObjsModel VmModel VmSpec VmProperties RegModel RegSpec RegProofs
  SaveModel SaveSpec SaveProofs SaveProperties RoundProperties CutSpec CutProofs.
From Coq Require Import ZArith List Lia.
Import ListNotations.
Open Scope Z_scope.

(** Any file, any machine: if a file can be read, no beginning of what was read
    of it can be. *)
Theorem C61_no_beginning host_load sub_load s b r s' :
  (forall t i, reader (host_load t i)) -> (forall n, reader (fun b => (tt, sub_load n b))) ->
  load host_load sub_load b s = Ok (LDone tt r s') ->
  exists read, b = read ++ r /\
    forall p a q t, beginning p read -> load host_load sub_load p s <> Ok (LDone a q t).
Proof. intros Hh Hs H. exact (load_cut _ _ Hh Hs _ _ _ _ H). Qed.

(** The file a machine wrote, cut off anywhere: reading it into a machine the
    host has prepared like the one saved returns false, or gives up for want of
    memory. *)
Theorem C61_cut_short s t host_save host_load sub_save sub_load b p :
  saveable s -> prepared t -> twin s t -> host_faithful s host_save host_load -> subs_faithful sub_save sub_load ->
  (forall t i, reader (host_load t i)) -> (forall n, reader (fun b => (tt, sub_load n b))) ->
  save host_save sub_save s = Ok b -> any_bytes b -> beginning p b ->
  (exists r t', load host_load sub_load p t = Ok (LFail r t')) \/ load host_load sub_load p t = Ok LCat.
Proof.
  intros Sv Pr Tw Hf Sf Hh Hs E By Bg.
  destruct (C43_round_trip_partial s t host_save host_load sub_save sub_load Sv Pr Tw Hf Sf) as (b' & t' & E' & Ld & _). rewrite E in E'. injection E' as <-.
  specialize (Ld []). rewrite app_nil_r in Ld. destruct (C61_no_beginning _ _ _ _ _ _ Hh Hs Ld) as (read & Er & N). rewrite app_nil_r in Er. subst read.
  destruct (C44_load_safe host_load sub_load t p Pr) as [o Eo].
  { destruct Bg as (c & q & ->). apply Forall_app in By. apply By. }
  destruct o as [a r t2|r t2|]; [destruct (N _ _ _ _ Bg Eo)|left; eauto|right; exact Eo].
Qed.

(** A file that does not start with the marker and the version is refused; at
    most an error is added to the machine. *)
Theorem C61_header host_load sub_load s b : live_ctx s (v_cur s) -> any_bytes b -> (forall q, b <> header ++ q) ->
  exists r s', load host_load sub_load b s = Ok (LFail r s') /\ (s' = s \/ exists e, s' = set_errs (v_errs s ++ [e]) s).
Proof.
  intros Lc By N. unfold load, lbind at 1. unfold take. destruct (Z.leb_spec 5 (zlen b)) as [L5|]; [|eauto 6].
  change (Z.to_nat 5) with 5%nat. do 5 (destruct b as [|? b]; [vm_compute in L5; congruence|]). cbn [firstn skipn].
  destruct (bytes_eqb _ MAGIC) eqn:M; cbn [negb].
  2:{ destruct (add_error_ok s (bs "Wrong binary format.") Lc) as [e Ee]. unfold lerror, lbind, lvm. rewrite Ee. cbn. eexists _, _. split; [reflexivity|]. right. eauto. }
  apply bytes_eqb_eq in M. unfold lbind at 1. unfold r32. unfold lbind at 1. unfold take. destruct (Z.leb_spec 4 (zlen b)) as [L4|]; [|eauto 6].
  change (Z.to_nat 4) with 4%nat. do 4 (destruct b as [|? b]; [vm_compute in L4; congruence|]). cbn [firstn skipn]. unfold lret.
  destruct (Z.eqb_spec (unword [z4; z5; z6; z7]) VERSION) as [V|V]; cbn [negb].
  2:{ destruct (add_error_ok s (bs "Wrong binary VM version.") Lc) as [e Ee]. unfold lerror, lbind, lvm. rewrite Ee. cbn. eexists _, _. split; [reflexivity|]. right. eauto. }
  exfalso. unfold MAGIC in M. injection M as -> -> -> -> ->. apply (N b). unfold header. cbn [app unword] in *.
  unfold any_bytes in By. rewrite !Forall_cons_iff in By. destruct By as (_ & _ & _ & _ & _ & B4 & B5 & B6 & B7 & _).
  cbv beta in *. unfold VERSION in V. assert (z4 = 5 /\ z5 = 0 /\ z6 = 0 /\ z7 = 0) as (-> & -> & -> & ->) by lia. reflexivity.
Qed.

(** Every file written starts with it. *)
Theorem C61_written host_save sub_save s b : save host_save sub_save s = Ok b -> exists q, b = header ++ q.
Proof.
  unfold save. destruct (znth _ _) as [[root|]|]; try discriminate. destruct (save_externals _ _ _) as [x|]; [|discriminate]. cbn [bind].
  destruct (save_chain _ _ _) as [a|]; [|discriminate]. cbn [bind]. intro H. injection H as <-. eexists. reflexivity.
Qed.

(** ** Cases *)

(** A reader of four bytes, and one that reads nothing. *)
Definition box_read : Z -> Z -> bytes -> option Z * nat := fun _ _ b =>
  match b with b0 :: b1 :: b2 :: b3 :: _ => (Some (b0 + 256 * b1 + 65536 * b2 + 16777216 * b3), 4%nat) | _ => (None, length b) end.
Lemma box_reader t i : reader (box_read t i).
Proof.
  intros b d n E. destruct b as [|b0 [|b1 [|b2 [|b3 b]]]]; injection E as <- <-; [right; cbn; lia..|left]. split; [cbn; lia|]. split; [reflexivity|].
  intros p B. apply beginning_len in B. cbn in B. destruct p as [|p0 [|p1 [|p2 [|p3 p]]]]; unfold box_read; cbn [length snd] in *; lia.
Qed.
Lemma none_reader n : reader (fun b => (tt, no_subload n b)).
Proof. intros b d k E. injection E as <- <-. left. split; [apply Nat.le_0_l|]. split; [reflexivity|]. intros p B. destruct (beginning_nil _ B). Qed.
Lemma box_same t i d rest : box_read t i (box_save t i d ++ rest) = box_load t i (box_save t i d ++ rest).
Proof. destruct d; reflexivity. Qed.
Lemma box_read_faithful : host_faithful saved_three box_save box_read.
Proof.
  intros i o G N C. destruct (saved_three_faithful i o G N C) as [A B]. split; [exact A|]. intro rest. rewrite box_same. apply B.
Qed.
(** A host with a type, an object of it with data, two host functions: its file
    is more than 200 bytes long, and none of its beginnings can be read. *)
Example C61_case : exists b, save box_save no_sub saved_three = Ok b /\ any_bytes b /\ 200 < zlen b /\
  saveable saved_three /\ prepared host_two /\ twin saved_three host_two /\ host_faithful saved_three box_save box_read /\ subs_faithful no_sub no_subload /\
  (forall t i, reader (box_read t i)) /\ (forall n, reader (fun b => (tt, no_subload n b))) /\
  forall p, beginning p b -> (exists r t', load box_read no_subload p host_two = Ok (LFail r t')) \/ load box_read no_subload p host_two = Ok LCat.
Proof.
  destruct (C43_round_trip_partial saved_three host_two box_save box_read no_sub no_subload saved_three_saveable host_two_prepared
    saved_three_twin box_read_faithful no_sub_faithful) as (b & t' & E & L & Sm & O).
  assert (Q : match save box_save no_sub saved_three with Ok b => (200 <? zlen b) && forallb (fun c => (0 <=? c) && (c <? 256)) b | _ => false end = true) by (vm_compute; reflexivity).
  rewrite E in Q. apply andb_prop in Q. destruct Q as [Q1 Q2].
  exists b. split; [exact E|]. split; [apply bytes_ok; exact Q2|]. split; [lia|]. split; [exact saved_three_saveable|]. split; [exact host_two_prepared|]. split; [exact saved_three_twin|].
  split; [exact box_read_faithful|]. split; [exact no_sub_faithful|]. split; [exact box_reader|]. split; [exact none_reader|].
  intros p B. eapply C61_cut_short; [exact saved_three_saveable|exact host_two_prepared|exact saved_three_twin|exact box_read_faithful|exact no_sub_faithful|exact box_reader|exact none_reader|exact E| |exact B].
  apply bytes_ok. exact Q2.
Qed.
(** The marker and another version. *)
Example C61_version : exists r s', load box_read no_subload [0; 78; 75; 86; 77; 4; 0; 0; 0; 1; 2] host_two = Ok (LFail r s') /\ zlen (v_errs s') = 1.
Proof. eexists _, _. split; vm_compute; reflexivity. Qed.

Print Assumptions C61_no_beginning.
Print Assumptions C61_cut_short.
Print Assumptions C61_header.
Print Assumptions C61_written.
