(** What is stored in a file of a contraction hierarchy. *)
From Verif Require Import Base ProtobufModel BitVectorModel BitVectorSpec UtilSpec ChBuildModel ChFileModel.

(** [o] is the object whose contents are described by [c]. *)
Definition side_object (s : fside) (d : chside) : Prop :=
  f_first_out s = cs_first_out d /\ f_head s = cs_head d /\ f_weight s = cs_weight d /\ bv_rep (f_orig s) (cs_orig d) /\
  f_first s = cs_first d /\ f_second s = cs_second d.
Definition ch_object (o : chobj) (c : ch) : Prop :=
  o_rank o = ch_rank c /\ o_order o = ch_order c /\ side_object (o_fwd o) (ch_fwd c) /\ side_object (o_bwd o) (ch_bwd c).

(** All numbers have 32 bits. *)
Definition id_fits (x : nat) : Prop := (N.of_nat x < 2 ^ 32)%N.
Definition side_fits (n : nat) (d : chside) : Prop :=
  length (cs_first_out d) = n + 1 /\ length (cs_weight d) = length (cs_head d) /\ length (cs_orig d) = length (cs_head d) /\
  length (cs_first d) = length (cs_head d) /\ length (cs_second d) = length (cs_head d) /\ id_fits (length (cs_head d)) /\
  Forall id_fits (cs_first_out d) /\ Forall id_fits (cs_head d) /\ Forall (fun x => x < 2 ^ 32)%N (cs_weight d) /\
  Forall id_fits (cs_first d) /\ Forall id_fits (cs_second d).
Definition ch_fits (c : ch) : Prop :=
  id_fits (length (ch_rank c) + 1) /\ perm (ch_rank c) /\ inverse_of (ch_rank c) (ch_order c) /\
  side_fits (length (ch_rank c)) (ch_fwd c) /\ side_fits (length (ch_rank c)) (ch_bwd c).

(** The number of bytes of a file for [n] nodes and [f] and [b] arcs: a header of 24 bytes, a rank for every node, and per direction the
    beginning of every node and of the end, four numbers per arc and one bit per arc in blocks of 512. *)
Definition size_of_file (n f b : N) : N :=
  let side a := (4 * (n + 1) + 4 * 4 * a + 64 * ((a + 511) / 512))%N in (24 + 4 * n + side f + side b)%N.
