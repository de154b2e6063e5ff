(** What osm_extract should write and print. *)
From Verif Require Import Base ProtobufModel VectorIoModel OsmGraphModel OsmGraphSpec OsmProfileSpec.
From Coq Require String. Import String.StringSyntax.

(** A file with a set of ids. Whatever was in the memory before, it gives a bit vector that represents the set. *)
Definition set_file (P : nat -> Prop) (bs : list N) : Prop :=
  forall garbage, length garbage = 8 -> exists r, load_bits garbage bs = Ret r /\ set_rep (loaded r) P.
(** The name of a way, with its number after a semicolon if it has one. *)
Definition way_name (tags : list (list N * list N)) (s : list N) : Prop :=
  (exists name number, value_of tags "name" name /\ value_of tags "ref" number /\ s = name ++ [59%N] ++ number) \/
  (value_of tags "name" s /\ no_tag tags "ref") \/ (value_of tags "ref" s /\ no_tag tags "name") \/ (s = [] /\ no_tag tags "name" /\ no_tag tags "ref").
(** The ids of nodes and ways that matter are small enough for the bit vectors. *)
Definition small_ids {D T} (file : list (element D T)) : Prop :=
  forall id nodes tags, EWay id nodes tags ∈ file -> (N.of_nat id < 2 ^ 62)%N /\ Forall (fun x => N.of_nat x < 2 ^ 62)%N nodes.
