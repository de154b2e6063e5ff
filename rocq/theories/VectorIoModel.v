(** Model of include/routingkit/vector_io.h ([h:]) and src/vector_io.cpp ([c:]).

    A file or stream is the list of its bytes ([N]). Opening files succeeds. The machine is
    little-endian. [Throw] is an exception. The address of the first element of an empty vector
    (h:21, h:36) is not judged. *)
From Verif Require Import Base ProtobufModel BitVectorModel.

(** ** Plain data: the bytes in memory *)
Fixpoint le_bytes (k : nat) (w : N) : list N :=
  match k with O => [] | S k => (w mod 256)%N :: le_bytes k (w / 256) end.
Fixpoint le_word (bs : list N) : N := match bs with [] => 0%N | b :: bs => (b + 256 * le_word bs)%N end.
(** Consecutive groups of [sz] bytes. *)
Fixpoint groups (n sz : nat) (bs : list N) : list (list N) :=
  match n with O => [] | S n => take sz bs :: groups n sz (drop sz bs) end.

Section pod.
  (** A POD type of [sz] bytes: how values lie in memory. *)
  Context {A : Type} (sz : nat) (enc : A -> list N) (dec : list N -> A).
  (** h:15-22 *)
  Definition save_vector (v : list A) : list N := concat (enc <$> v).
  (** h:24-38 *)
  Definition load_vector (file : list N) : result (list A) :=
    if decide (length file mod sz <> 0) then Throw else Ret (dec <$> groups (length file / sz) sz file).
  (** h:53-56 and 59-67 *)
  Definition save_value (x : A) : list N := save_vector [x].
  Definition load_value (file : list N) : result A :=
    match load_vector file with
    | Ret [x] => Ret x
    | _ => Throw
    end.
  (** h:70-85 and h:110-122: writing appends to the stream; reading takes from the front, and
      throws if there are too few bytes (h:82; the function objects of h:110-151 do so too) *)
  Definition write_value (out : list N) (x : A) : list N := out ++ enc x.
  Definition read_bytes (n : nat) (inp : list N) : result (list N * list N) :=
    if decide (length inp < n) then Throw else Ret (take n inp, drop n inp).
  Definition read_value (inp : list N) : result (A * list N) :=
    match read_bytes sz inp with Ret (bs, inp) => Ret (dec bs, inp) | Throw => Throw end.
  (** h:87-104 and h:124-136 *)
  Definition write_vector (out : list N) (v : list A) : list N := out ++ concat (enc <$> v).
  Definition read_vector (size : nat) (inp : list N) : result (list A * list N) :=
    match read_bytes (sz * size) inp with Ret (bs, inp) => Ret (dec <$> groups size sz bs, inp) | Throw => Throw end.
End pod.

(** ** Strings *)
(** c:5-12; the loop counter has 32 bits, so the loop does not end for 2^32 strings or more *)
Definition save_strings (v : list (list N)) : list N := concat ((fun s => s ++ [0%N]) <$> v).
(** c:14-35; [cur] is the text between str_begin and str_end *)
Fixpoint split_strings (data cur : list N) : list (list N) :=
  match data with
  | [] => []
  | b :: data => if decide (b = 0%N) then cur :: split_strings data [] else split_strings data (cur ++ [b])
  end.
Definition load_strings (file : list N) : list (list N) := split_strings file [].

(** ** Bit vectors *)
(** c:37-44 *)
Definition save_bits (v : bitvec) : list N := le_bytes 8 (N.of_nat (bv_size v)) ++ concat (le_bytes 8 <$> bv_data v).
(** c:46-61. If the file is too short for the size, the rest of the variable is arbitrary
    ([garbage], eight bytes). The computation of the size wraps at 2^64, like that of the number
    of blocks in the constructor (bit_vector.cpp:103-113). The size is a [N] because such a wrap-around is possible. *)
Definition load_bits (garbage file : list N) : result (N * list N) :=
  let head := take 8 file in
  let size := le_word (head ++ drop (length head) garbage) in
  let blocks := (((size + 511) mod 2 ^ 64) / 512)%N in
  if decide (blocks * 64 + 8 <> N.of_nat (length file))%N then Throw
  else Ret (size, le_word <$> groups (8 * N.to_nat blocks) 8 (drop 8 file)).
(** The resulting object; the constructor with size zero does not allocate. *)
Definition loaded (r : N * list N) : bitvec := if decide (fst r = 0%N) then bv_empty else mkBv false (N.to_nat (fst r)) (snd r).
(** h:141-151 *)
Definition write_bits (out : list N) (v : bitvec) : list N := out ++ concat (le_bytes 8 <$> bv_data v).
Definition read_bits (size : nat) (inp : list N) : result (bitvec * list N) :=
  match read_bytes ((size + 511) / 512 * 64) inp with
  | Ret (bs, inp) => Ret (loaded (N.of_nat size, le_word <$> groups ((size + 511) / 512 * 8) 8 bs), inp)
  | Throw => Throw
  end.
