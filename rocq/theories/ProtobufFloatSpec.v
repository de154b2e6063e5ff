(** Messages with floating point numbers, as other programs write them. *)
From Coq Require Import ZArith Reals.
From Flocq Require Import IEEE754.Binary IEEE754.Bits.
From Verif Require Import Base VectorIoModel ProtobufModel ProtobufSpec ProtobufFloatModel.

(** Fields with their values, and how they are written: numbers with the lowest byte first. *)
Inductive vfield := VVarint (id v : N) | VDouble (id : N) (x : binary64) | VFloat (id : N) (y : binary32) | VString (id : N) (s : list N).
Definition wire (f : vfield) : list N :=
  match f with
  | VVarint id v => encode (8 * id) ++ encode v
  | VDouble id x => encode (8 * id + 1) ++ le_bytes 8 (Z.to_N (bits_of_b64 x))
  | VFloat id y => encode (8 * id + 5) ++ le_bytes 4 (Z.to_N (bits_of_b32 y))
  | VString id s => encode (8 * id + 2) ++ encode (N.of_nat (length s)) ++ s
  end.
(** Ids of fields fit into 61 bits, and other numbers into 64. *)
Definition vfield_ok (f : vfield) : Prop :=
  match f with
  | VVarint id v => (id < 2 ^ 61 /\ v < 2 ^ 64)%N
  | VDouble id _ | VFloat id _ => (id < 2 ^ 61)%N
  | VString id s => (id < 2 ^ 61 /\ N.of_nat (length s) < 2 ^ 64)%N
  end.

(** A double is the same number as a float. *)
Definition same_number (y : binary32) (x : binary64) : Prop :=
  is_nan 53 1024 x = is_nan 24 128 y /\ is_finite 53 1024 x = is_finite 24 128 y /\ B2R 53 1024 x = B2R 24 128 y /\
  (is_nan 24 128 y = false -> Bsign 53 1024 x = Bsign 24 128 y).
(** The call that a field should lead to. *)
Definition says (f : vfield) (c : call) : Prop :=
  match f with
  | VVarint id v => c = CallVarint id v
  | VDouble id x => c = CallDouble id x
  | VFloat id y => exists x, c = CallDouble id x /\ same_number y x
  | VString id s => c = CallString id s
  end.

(** All numbers lie at addresses that are multiples of their sizes, if the message begins at [addr]. *)
Fixpoint aligned (addr : nat) (fs : list vfield) : Prop :=
  match fs with
  | [] => True
  | f :: fs =>
      let next := addr + length (wire f) in
      match f with VDouble _ _ => (next - 8) mod 8 = 0 | VFloat _ _ => (next - 4) mod 4 = 0 | _ => True end /\ aligned next fs
  end.
