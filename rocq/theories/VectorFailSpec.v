(** What a failing device may do to a file, and what may be said about it. *)
From Verif Require Import Base.

(** A device with room for [room] bytes holds the beginning of what was to be stored. *)
Definition stored (room : nat) (bytes : list N) : list N := take room bytes.
(** Something is missing. *)
Definition lost (room : nat) (bytes : list N) : Prop := room < length bytes.

(** The first [k] strings are all that lie completely, with their terminators, within [room] bytes. *)
Definition text_size (v : list (list N)) : nat := sum_list ((fun s => S (length s)) <$> v).
Definition complete_strings (v : list (list N)) (room k : nat) : Prop :=
  k <= length v /\ text_size (take k v) <= room /\ (k < length v -> room < text_size (take (S k) v)).
