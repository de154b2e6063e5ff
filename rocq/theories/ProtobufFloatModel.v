(** Model of src/protobuf.h ([h:]) with the floating point numbers that are given to the callback, and with the addresses from which they
    are read. Numbers are those of IEEE 754 (Flocq); the machine is little-endian. *)
From Coq Require Import ZArith.
From Flocq Require Import IEEE754.Binary IEEE754.Bits.
From Verif Require Import Base VectorIoModel ProtobufModel FloatModel.

(** h:27, eight bytes as a double *)
Definition bytes_double (bs : list N) : binary64 := b64_of_bits (Z.of_N (le_word bs)).
(** h:33, the conversion of a float to a double. Something that is not a number stays so; which one does not matter. *)
Definition widen (x : binary32) : binary64 :=
  match x with
  | B754_zero _ _ s => B754_zero 53 1024 s
  | B754_infinity _ _ s => B754_infinity 53 1024 s
  | B754_nan _ _ _ _ _ => proj1_sig default_nan_pl64
  | B754_finite _ _ s m e _ => binary_normalize 53 1024 eq_refl eq_refl BinarySingleNaN.mode_NE (Zaux.cond_Zopp s (Z.pos m)) e s
  end.

(** The calls of the three callbacks (h:15). *)
Inductive call := CallVarint (id v : N) | CallDouble (id : N) (x : binary64) | CallString (id : N) (bytes : list N).

(** h:14-49. [last] is the address [end]; so the address [begin] is [last - length bs]. With [strict], the access through a pointer that is
    not aligned is undefined (h:27, h:33), as the standard says; without, it is not, as on x86-64. *)
Fixpoint walk_calls (strict : bool) (last fuel : nat) (bs : list N) : option (list call * bool) :=
  match bs with
  | [] => Some ([], true)
  | _ =>
      match fuel with
      | O => None
      | S fuel =>
          r ← decode_varint bs;
          match r with
          | Throw => Some ([], false)
          | Ret (header, bs) =>
              let id := N.shiftr header 3 in
              match N.land header 7 with
              | 0%N =>
                  r ← decode_varint bs;
                  match r with
                  | Throw => Some ([], false)
                  | Ret (v, bs) => '(cs, ok) ← walk_calls strict last fuel bs; Some (CallVarint id v :: cs, ok)
                  end
              | 1%N =>
                  if decide (length bs < 8) then Some ([], false)
                  else
                    _ ← chk (negb strict || bool_decide ((last - length bs) mod 8 = 0));
                    '(cs, ok) ← walk_calls strict last fuel (drop 8 bs); Some (CallDouble id (bytes_double (take 8 bs)) :: cs, ok)
              | 5%N =>
                  if decide (length bs < 4) then Some ([], false)
                  else
                    _ ← chk (negb strict || bool_decide ((last - length bs) mod 4 = 0));
                    '(cs, ok) ← walk_calls strict last fuel (drop 4 bs); Some (CallDouble id (widen (bytes_float (take 4 bs))) :: cs, ok)
              | 2%N =>
                  r ← decode_varint bs;
                  match r with
                  | Throw => Some ([], false)
                  | Ret (len, bs) =>
                      if decide (N.of_nat (length bs) < len)%N then Some ([], false)
                      else '(cs, ok) ← walk_calls strict last fuel (drop (N.to_nat len) bs); Some (CallString id (take (N.to_nat len) bs) :: cs, ok)
                  end
              | _ => Some ([], false)
              end
          end
      end
  end.
(** The whole message, which begins at address [first]. *)
Definition decode_message (strict : bool) (first : nat) (bs : list N) : option (list call * bool) := walk_calls strict (first + length bs) (length bs) bs.
