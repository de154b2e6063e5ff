(** Model of reading and writing contraction hierarchies,
    src/contraction_hierarchy.cpp:1289-1424 (without numbers at definitions: lines of that file).

    A file or stream is the list of its bytes, as in VectorIoModel. [None] is undefined behaviour,
    [Throw] an exception. Memory is unlimited. *)
From Verif Require Import Base ProtobufModel BitVectorModel VectorIoModel PermutationModel.

(** The object: contraction_hierarchy.h:53-64, with the bit vectors (ChBuildModel and ChQueryModel use lists of [bool]). *)
Record fside := mkFside { f_first_out : list nat; f_head : list nat; f_weight : list N; f_orig : bitvec; f_first : list nat; f_second : list nat }.
Record chobj := mkObj { o_rank : list nat; o_order : list nat; o_fwd : fside; o_bwd : fside }.
(** What the default constructor makes (contraction_hierarchy.h:53-64). *)
Definition default_side : fside := mkFside [] [] [] bv_empty [] [].
Definition default_obj : chobj := mkObj [] [] default_side default_side.

(** Sequencing of steps that can throw. *)
Definition andthen {A B} (m : option (result A)) (k : A -> option (result B)) : option (result B) :=
  match m with Some (Ret x) => k x | Some Throw => Some Throw | None => None end.

(** unsigned values in memory (vectors of nodes and arcs are lists of [nat] here) *)
Definition enc_id (x : nat) : list N := le_bytes 4 (N.of_nat x).
Definition dec_id (bs : list N) : nat := N.to_nat (le_word bs).

(** 1290-1297 *)
Definition ch_magic_number : N := 0x436f6e7448696572.
Record fheader := mkHeader { h_magic : N; h_nodes : N; h_fwd : N; h_bwd : N }.
(** The struct has 24 bytes, because it is aligned like its first member; the last four, [pad], are
    never written by the program. *)
Definition enc_header (pad : list N) (h : fheader) : list N :=
  le_bytes 8 (h_magic h) ++ le_bytes 4 (h_nodes h) ++ le_bytes 4 (h_fwd h) ++ le_bytes 4 (h_bwd h) ++ pad.
Definition dec_header (bs : list N) : fheader :=
  mkHeader (le_word (take 8 bs)) (le_word (take 4 (drop 8 bs))) (le_word (take 4 (drop 12 bs))) (le_word (take 4 (drop 16 bs))).

(** Arithmetic of unsigned (32 bits) *)
Definition u32 (x : N) : N := (x mod 2 ^ 32)%N.

(** 1411-1416 and 1418-1423: one direction *)
Definition write_side (out : list N) (s : fside) : list N :=
  let out := write_vector enc_id out (f_first_out s) in
  let out := write_vector enc_id out (f_head s) in
  let out := write_vector (le_bytes 4) out (f_weight s) in
  let out := write_bits out (f_orig s) in
  let out := write_vector enc_id out (f_first s) in
  write_vector enc_id out (f_second s).
(** 1401-1424. The subtraction is one of size_t and the results are cut to 32 bits. *)
Definition write_ch (pad : list N) (out : list N) (o : chobj) : list N :=
  let header := mkHeader ch_magic_number (u32 ((N.of_nat (length (f_first_out (o_fwd o))) + (2 ^ 64 - 1)) mod 2 ^ 64))
    (u32 (N.of_nat (length (f_head (o_fwd o))))) (u32 (N.of_nat (length (f_head (o_bwd o))))) in
  let out := write_value (enc_header pad) out header in
  let out := write_vector enc_id out (o_rank o) in
  let out := write_side out (o_fwd o) in
  write_side out (o_bwd o).

(** The calls of read_vector and read_bit_vector of 1348-1363 *)
Definition read_ids (size : N) (inp : list N) : option (result (list nat * list N)) := Some (read_vector 4 dec_id (N.to_nat size) inp).
Definition read_words (size : N) (inp : list N) : option (result (list N * list N)) := Some (read_vector 4 le_word (N.to_nat size) inp).
Definition read_flags (size : N) (inp : list N) : option (result (bitvec * list N)) := Some (read_bits (N.to_nat size) inp).
(** 1351-1356 and 1358-1363: one direction. The addition is one of unsigned. *)
Definition read_side (nodes arcs : N) (inp : list N) : option (result (fside * list N)) :=
  andthen (read_ids (u32 (nodes + 1)) inp) (fun '(first_out, inp) =>
  andthen (read_ids arcs inp) (fun '(head, inp) =>
  andthen (read_words arcs inp) (fun '(weight, inp) =>
  andthen (read_flags arcs inp) (fun '(orig, inp) =>
  andthen (read_ids arcs inp) (fun '(first, inp) =>
  andthen (read_ids arcs inp) (fun '(second, inp) =>
  Some (Ret (mkFside first_out head weight orig first second, inp)))))))).
(** 1346-1366 *)
Definition finish_read (h : fheader) (inp : list N) : option (result (chobj * list N)) :=
  andthen (read_ids (h_nodes h) inp) (fun '(rank, inp) =>
  match invert_permutation rank with
  | None => None
  | Some order =>
    andthen (read_side (h_nodes h) (h_fwd h) inp) (fun '(fwd, inp) =>
    andthen (read_side (h_nodes h) (h_bwd h) inp) (fun '(bwd, inp) =>
    Some (Ret (mkObj rank order fwd bwd, inp))))
  end).
(** 1370-1371 and 1396-1397 with 1341-1344 *)
Definition read_header (inp : list N) : option (result (fheader * list N)) :=
  andthen (Some (read_value 24 dec_header inp)) (fun '(h, inp) =>
  if decide (h_magic h <> ch_magic_number) then Some Throw else Some (Ret (h, inp))).
(** 1395-1399 *)
Definition read_ch (inp : list N) : option (result (chobj * list N)) :=
  andthen (read_header inp) (fun '(h, inp) => finish_read h inp).
(** 1372-1389. The sum in the parentheses has type unsigned, and so has each of the last two lines before the
    outer addition; sizeof has type size_t (64 bits). *)
Definition expected_file_size (h : fheader) : N :=
  ((24 + 4 * u32 (h_nodes h + u32 (u32 (h_nodes h + 1) + u32 (4 * h_fwd h)) + u32 (u32 (h_nodes h + 1) + u32 (4 * h_bwd h)))
    + u32 (u32 (h_bwd h + 511) / 512 * 64) + u32 (u32 (h_fwd h + 511) / 512 * 64)) mod 2 ^ 64)%N.
(** 1369-1393 *)
Definition read_ch_sized (inp : list N) (file_size : N) : option (result (chobj * list N)) :=
  andthen (read_header inp) (fun '(h, inp) =>
  if decide (expected_file_size h <> file_size) then Some Throw else finish_read h inp).

(** 1330-1334 and 1336-1338 with open_file_for_loading and open_file_for_saving
    (vector_io.h:153-172): the whole file; bytes left over would not be noticed *)
Definition load_ch (file : list N) : option (result chobj) :=
  andthen (read_ch_sized file (N.of_nat (length file))) (fun '(o, _) => Some (Ret o)).
Definition save_ch (pad : list N) (o : chobj) : list N := write_ch pad [] o.
