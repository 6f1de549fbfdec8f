(** * StrSpec: histories of string creations and collections *)
From Verif Require Import Base State StrModel.

(** What an outsider knows: which text each identifier in use stands for. *)
Definition texts := Z -> option bytes.

(** Everything a garbage collection or the compiler may do to a string entry
    besides removing it: set its pass number and its keep flag. *)
Definition with_flags (s : vm) (i gc : Z) (keep : bool) : vm :=
  match tab_get (v_strs s) i with
  | None => s
  | Some e =>
    set_strs (mkT (zupd (t_slots (v_strs s)) i (Some (mkS (s_idx e) gc keep (s_hash e) (s_str e))))
                  (t_holes (v_strs s))) s
  end.

Definition all_bytes (t : bytes) : Prop := Forall (fun c => 0 < c < 256) t.

(** [str_history s m]: the VM [s] is reached from one with no strings by any
    number of string creations, flag changes and collections; [m] records,
    from the calls and their results alone, what each identifier denotes. *)
Inductive str_history : vm -> texts -> Prop :=
| sh_init s :
    v_strs s = tab_init -> v_byhash s = repeat [] 256 ->
    (exists c, znth (v_ctxs s) (v_cur s) = Some (Some c)) ->
    str_history s (fun _ => None)
| sh_create s m txt i s' :
    str_history s m -> all_bytes txt ->
    find_or_add_string txt s = Ok (i, s') ->
    str_history s' (fun j => if (j =? i) && negb (i =? INVALID) then Some txt else m j)
| sh_flags s m i gc keep :
    str_history s m -> str_history (with_flags s i gc keep) m
| sh_collect s m pass s' :
    str_history s m -> clean_old_strings pass s = Ok (tt, s') ->
    str_history s' (fun j => match tab_get (v_strs s) j with
                             | Some e => if (s_gc e =? pass) || s_keep e then m j else None
                             | None => None
                             end).
