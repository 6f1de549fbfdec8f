(** * CutSpec: files that are not whole (C61) *)
From Verif Require Import Base State SaveModel.

(** [p] is the beginning of [b], but not all of it. *)
Definition beginning (p b : bytes) : Prop := exists c q, b = p ++ c :: q.

(** The bytes every file starts with: the marker, zero and the letters N K V M,
    and the version, 5, as a 32-bit number. *)
Definition header : bytes := [0; 78; 75; 86; 77; 5; 0; 0; 0].

(** The host's readers.  Given what is left of the file one answers with a
    result and the number of bytes it has used.  Either it got all it wanted,
    and then nothing behind that matters, and with less it would have used up
    everything there was; or it has used up everything. *)
Definition reader {X} (f : bytes -> X * nat) : Prop := forall b d n, f b = (d, n) ->
  ((n <= length b)%nat /\ (forall q, f (firstn n b ++ q) = (d, n)) /\
    forall p, beginning p (firstn n b) -> (length p <= snd (f p))%nat) \/
  (length b <= n)%nat.
