(** Model of src/graph_to_dot.cpp ([d:]) and src/graph_to_svg.cpp ([v:]).

    A program is a function from the bytes of the files that it reads to the bytes of the file that it writes, as in GraphToolModel. Floats are those of
    FloatModel; [show] is what [out << x] prints for a float [x], whose format is not modelled. Vectors have less than 2^32 elements. *)
From Coq Require Import ZArith.
From Flocq Require Import IEEE754.Binary IEEE754.Bits.
From Verif Require Import Base ProtobufModel VectorIoModel ChFileModel DistanceToolModel TextModel FloatModel.
From Coq Require String. Import String.StringSyntax.

(** d:44-50, v:68-76: the loops over the nodes and their arcs. Without elements [first_out_arc.size()-1] wraps around and the loop reads outside of the array. *)
Definition all_arcs {S} (first_out : list nat) (body : nat -> nat -> S -> option S) (s : S) : option S :=
  _ ← chk (negb (length first_out =? 0)%nat);
  for_range 0 (length first_out - 1) (fun x s => a ← first_out !! x; b ← first_out !! (x + 1); for_range a b (body x) s) s.

(** d:46-48 *)
Definition dot_arc (head : list nat) (weight : list N) (x xy : nat) (out : list N) : option (list N) :=
  y ← head !! xy; w ← weight !! xy;
  Some (out ++ print_unsigned (N.of_nat x) ++ text " -> " ++ print_unsigned (N.of_nat y) ++ text "[label=""" ++ print_unsigned w ++ text """];" ++ [10%N]).
(** d:32-51 *)
Definition graph_to_dot (first_out_file head_file weight_file : list N) : option (result (list N)) :=
  andthen (load_ids first_out_file) (fun first_out =>
  andthen (load_ids head_file) (fun head =>
  andthen (load_words weight_file) (fun weight =>
  out ← all_arcs first_out (dot_arc head weight) (text "digraph G{");
  Some (Ret (out ++ text "}" ++ [10%N]))))).

(** min_max.h:21-29, 45-53: the position of the first element that no other one is better than. Without assertions 0 for an empty vector. *)
Definition first_best {A} (better : A -> A -> bool) (v : list A) : option nat :=
  for_range 1 (length v) (fun i pos => a ← v !! i; b ← v !! pos; Some (if better a b then i else pos)) 0.
(** min_max.h:31-34, 55-58 *)
Definition best_of {A} (better : A -> A -> bool) (v : list A) : option A := pos ← first_best better v; v !! pos.
(** v:47, 56, 73-74: the conversion of the int 300 *)
Definition float_300 : binary32 := binary_normalize 24 128 eq_refl eq_refl BinarySingleNaN.mode_NE 300 0 false.
(** v:46-48, 55-57 *)
Definition scale_coordinate (least greatest x : binary32) : binary32 :=
  b32_div BinarySingleNaN.mode_NE (b32_mult BinarySingleNaN.mode_NE (float_minus x least) float_300) (float_minus greatest least).
(** v:42-49, 51-58 *)
Definition scale_coordinates (v : list binary32) : option (list binary32) :=
  least ← best_of (fun a b => float_less a b) v;
  greatest ← best_of (fun a b => float_less b a) v;
  Some (scale_coordinate least greatest <$> v).

Section svg.
Context (show : binary32 -> list N).
(** v:70-74 *)
Definition svg_arc (head : list nat) (latitude longitude : list binary32) (x xy : nat) (out : list N) : option (list N) :=
  y ← head !! xy;
  x1 ← longitude !! x; y1 ← latitude !! x; x2 ← longitude !! y; y2 ← latitude !! y;
  Some (out ++ text "<line x1=""" ++ show x1 ++ text """ y1=""" ++ show (float_minus float_300 y1) ++ text """ x2=""" ++ show x2 ++ text """ y2=""" ++
    show (float_minus float_300 y2) ++ text """ style=""stroke:#000000;""/>" ++ [10%N]).
(** v:35-77 *)
Definition graph_to_svg (first_out_file head_file latitude_file longitude_file : list N) : option (result (list N)) :=
  andthen (load_ids first_out_file) (fun first_out =>
  andthen (load_ids head_file) (fun head =>
  andthen (Some (load_vector 4 bytes_float latitude_file)) (fun latitude =>
  andthen (Some (load_vector 4 bytes_float longitude_file)) (fun longitude =>
  latitude ← scale_coordinates latitude;
  longitude ← scale_coordinates longitude;
  out ← all_arcs first_out (svg_arc head latitude longitude)
    (text "<svg xmlns=""http://www.w3.org/2000/svg"" xmlns:xlink=""http://www.w3.org/1999/xlink"" viewBox=""0 0 300 300"">" ++ [10%N]);
  Some (Ret (out ++ text "</svg>" ++ [10%N])))))).
End svg.
