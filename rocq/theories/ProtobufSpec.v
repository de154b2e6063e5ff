(** The protobuf wire format. *)
From Verif Require Import Base ProtobufModel.

Definition byte (b : N) : Prop := (b < 256)%N.
(** A byte that announces another one; the last byte of a varint. *)
Definition cont (b : N) : Prop := (128 <= b < 256)%N.
Definition final (b : N) : Prop := (b < 128)%N.
Definition terminated (c : list N) : Prop := exists cs l, c = cs ++ [l] /\ Forall cont cs /\ final l.

(** The value: seven bits per byte, least significant first. *)
Fixpoint base128 (c : list N) : N := match c with [] => 0 | b :: c => b mod 128 + 128 * base128 c end%N.

(** The shortest encoding of a number (the encoder of other programs); at most ten bytes for 64 bits. *)
Fixpoint encode_loop (fuel : nat) (v : N) : list N :=
  match fuel with
  | O => []
  | S fuel => if decide (v < 128)%N then [v] else (128 + v mod 128)%N :: encode_loop fuel (v / 128)
  end.
Definition encode (v : N) : list N := encode_loop 10 v.

(** A correct encoding of a 64-bit number, possibly with superfluous zero groups. *)
Definition varint_of (c : list N) (v : N) : Prop := terminated c /\ length c <= 10 /\ base128 c = v /\ (v < 2 ^ 64)%N.
(** What the code accepts: the upper six bits of the tenth byte are ignored. *)
Definition varint_read (c : list N) (v : N) : Prop := terminated c /\ length c <= 10 /\ v = (base128 c mod 2 ^ 64)%N.

(** Fields and messages for a notion of varint. *)
Inductive field (R : list N -> N -> Prop) : list N -> event -> Prop :=
| field_varint h c id v : R h (8 * id)%N -> R c v -> field R (h ++ c) (EVarint id v)
| field_double h id d : R h (8 * id + 1)%N -> length d = 8 -> field R (h ++ d) (EDouble id d)
| field_float h id d : R h (8 * id + 5)%N -> length d = 4 -> field R (h ++ d) (EFloat id d)
| field_string h c id s : R h (8 * id + 2)%N -> R c (N.of_nat (length s)) -> field R (h ++ c ++ s) (EString id s).
Inductive message (R : list N -> N -> Prop) : list N -> list event -> Prop :=
| message_nil : message R [] []
| message_cons f e bs es : field R f e -> message R bs es -> message R (f ++ bs) (e :: es).

(** A byte string starting with a varint that does not end within ten bytes although the tenth
    byte is the only one the code accepts there. *)
Definition overlong (bs : list N) : Prop := exists cs r, bs = cs ++ 129%N :: r /\ length cs = 9 /\ Forall cont cs /\ r <> [].

(** zigzag encoding of a 64-bit integer *)
Definition zigzag_encode (z : Z) : N := Z.to_N (if decide (0 <= z)%Z then 2 * z else -2 * z - 1)%Z.
