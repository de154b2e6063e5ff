(** Model of src/compute_geographic_distance_weights.cpp.

    A program is a function from the bytes of its input files to the bytes of its output, as in DistanceToolModel.
    [float] and [double] are the real numbers, see GeoDistModel; [value] gives the number that four bytes stand for. *)
From Coq Require Import Reals.
From Verif Require Import Base ProtobufModel VectorIoModel ChFileModel VerifyModel DistanceToolModel GeoTreeModel GeoDistModel.

(** vector_io.h:24-38 for vector<float> (lines 41-42) *)
Definition load_floats (value : list N -> R) (file : list N) : option (result (list R)) := Some (load_vector 4 value file).
(** static_cast<unsigned> of a double (line 58): rounds towards zero, undefined if the result does not fit *)
Definition double_to_unsigned (x : R) : option N :=
  _ ← chk (if Rlt_dec (-1) x then if Rlt_dec x (IZR (2 ^ 32)) then true else false else false);
  Some (if Rlt_dec x 0 then 0%N else Z.to_N (Int_part x)).
(** 57-58 *)
Definition weigh_arc (head : list nat) (latitude longitude : list R) (x xy : nat) (weight : list N) : option (list N) :=
  y ← head !! xy;
  a ← latitude !! x; b ← longitude !! x; c ← latitude !! y; d ← longitude !! y;
  k ← double_to_unsigned (geo_dist a b c d);
  wr weight xy k.
(** 53-60 *)
Definition geographic_weights (first_out head : list nat) (latitude longitude : list R) : option (list N) :=
  for_range 0 (length first_out - 1) (fun x weight =>
    lo ← first_out !! x; hi ← first_out !! (x + 1);
    for_range lo hi (weigh_arc head latitude longitude x) weight) (replicate (length head) 0%N).
(** 38-66; the numbers of coordinates are not checked *)
Definition compute_geographic_weights (value : list N -> R) (first_out_file head_file latitude_file longitude_file : list N) : option (result (list N)) :=
  andthen (load_ids first_out_file) (fun first_out =>
  andthen (load_ids head_file) (fun head =>
  andthen (load_floats value latitude_file) (fun latitude =>
  andthen (load_floats value longitude_file) (fun longitude =>
  andthen (check_if_graph_is_valid first_out head) (fun _ =>
  weight ← geographic_weights first_out head latitude longitude;
  Some (Ret (save_words weight))))))).
