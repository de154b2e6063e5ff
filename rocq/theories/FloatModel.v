(** Model of the floating point numbers with which the programs store positions, for src/convert_road_dimacs_coordinates.cpp ([c:]) and
    src/nested_dissection.cpp ([n:]): IEEE 754 with 32 and 64 bits, rounding to nearest even, as formalised in Flocq; every operation is
    rounded by itself (no excess precision, which x86-64 and other current platforms do not have). *)
From Coq Require Import ZArith.
From Flocq Require Import IEEE754.Binary IEEE754.Bits.
From Verif Require Import Base VectorIoModel.

(** c:86-87, [static_cast<double>] of a long long *)
Definition to_double (k : Z) : binary64 := binary_normalize 53 1024 eq_refl eq_refl BinarySingleNaN.mode_NE k 0 false.
(** c:86-87, the implicit conversion of a double to a float. What becomes of a double that is not a number does not matter here. *)
Definition to_float (x : binary64) : binary32 :=
  match x with
  | B754_zero _ _ s => B754_zero 24 128 s
  | B754_infinity _ _ s => B754_infinity 24 128 s
  | B754_nan _ _ _ _ _ => proj1_sig default_nan_pl32
  | B754_finite _ _ s m e _ => binary_normalize 24 128 eq_refl eq_refl BinarySingleNaN.mode_NE (Zaux.cond_Zopp s (Z.pos m)) e s
  end.
(** c:46, 86-87: [static_cast<double>(lon) / dimacs_scale] *)
Definition micro_float (k : Z) : binary32 := to_float (b64_div BinarySingleNaN.mode_NE (to_double k) (to_double 1000000)).
(** c:98-99 with vector_io.h:21: the four bytes of a float, the lowest first *)
Definition float_bytes (x : binary32) : list N := le_bytes 4 (Z.to_N (bits_of_b32 x)).
(** vector_io.h:36 as in compute_nested_dissection_order.cpp:47-48 *)
Definition bytes_float (bs : list N) : binary32 := b32_of_bits (Z.of_N (le_word bs)).
(** n:521 *)
Definition float_plus : binary32 -> binary32 -> binary32 := b32_plus BinarySingleNaN.mode_NE.
(** n:528 *)
Definition float_minus : binary32 -> binary32 -> binary32 := b32_minus BinarySingleNaN.mode_NE.
(** n:452-453. A comparison with something that is not a number is false. *)
Definition float_less (x y : binary32) : bool := match b32_compare x y with Some Lt => true | _ => false end.
