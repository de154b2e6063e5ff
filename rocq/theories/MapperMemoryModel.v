(** Model of the pointer in mappers of ids, include/routingkit/id_mapper.h ([h:]) and src/id_mapper.cpp ([c:]): IdMapperModel passes the words of the bit
    vector, here they are read from the memory of BitMemoryModel when a query is answered. *)
From stdpp Require Import gmap.
From Verif Require Import Base BitVectorModel BitVectorSpec BitMemoryModel IdMapperModel.

(** h:43-45, 60: bits_ ([None] is the null pointer), bit_count_, rank_ and select_ *)
Record pmapper := mkPmapper { p_bits : option nat; p_count : nat; p_rank : list nat; p_select : list nat }.
(** h:17-20, 51-54 and c:13-58: a mapper for the object in variable [i]; data() is the pointer of the object. *)
Definition make_mapper (s : bmem) (i : nat) : option pmapper :=
  o ← get s i; v ← view (heap s) o; m ← new_mapper (bv_size v) (bv_data v);
  Some (mkPmapper (fst o) (bit_count_ m) (rank_ m) (select_ m)).
(** h:43: the mapper with the words that its pointer points to. In a block that does not exist there are no words, so that every access fails. *)
Definition deref (h : gmap nat (list N)) (m : pmapper) : mapper :=
  mkMapper (match p_bits m with None => [] | Some p => default [] (h !! p) end) (p_count m) (p_rank m) (p_select m).
(** h:22-36, c:60-126 *)
Definition p_local_id_count (m : pmapper) : nat := default 0 (last (p_rank m)).
Definition p_is_mapped (h : gmap nat (list N)) (m : pmapper) (g : nat) : option bool := is_global_id_mapped (deref h m) g.
Definition p_to_local (h : gmap nat (list N)) (m : pmapper) (g : nat) : option nat := to_local (deref h m) g.
Definition p_to_local_or (h : gmap nat (list N)) (m : pmapper) (g : nat) (invalid : option nat) : option (option nat) := to_local_or (deref h m) g invalid.
Definition p_to_global (h : gmap nat (list N)) (m : pmapper) (l : nat) : option nat := to_global (deref h m) l.
