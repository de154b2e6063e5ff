(** Model of src/compute_nested_dissection_order.cpp ([o:]) and of how inertial flow uses the coordinates
    (src/nested_dissection.cpp, [n:]), which InertialModel leaves open.

    A program is a function from the bytes of its input files to the bytes of its output, as in DistanceToolModel.
    The type float is arbitrary: [F] with its sum, difference and comparison; a comparison with a number that is
    not a number is false. *)
From Verif Require Import Base ProtobufModel VectorIoModel PermutationModel ChFileModel DistanceToolModel FlowModel NestedModel InertialModel.

Section Coordinates.
  Context (asserts : bool) {F : Type} (fplus fminus : F -> F -> F) (flt : F -> F -> bool).
  (** std::nth_element(first, nth, last, comp): the range after the call, from [comp], [nth - first] and the range before. *)
  Context (nth_element : (nat -> nat -> bool) -> nat -> list nat -> list nat).
  (** What the memory of is_arc_blocked contains, see InertialModel. *)
  Context (garbage : fragment -> N -> nat -> list bool).

  (** n:446, 452-453: the array after both calls *)
  Definition place_nodes (side n : nat) (less : nat -> nat -> bool) : list nat :=
    let v := nth_element less side (seq 0 n) in
    take side v ++ nth_element less (n - side - side) (drop side v).
  (** n:507, 514, 521, 528: horizontal, vertical, main diagonal, next diagonal *)
  Definition sort_key (latitude longitude : list F) (g : fragment) (i x : nat) : option F :=
    id ← fr_global g !! x;
    a ← latitude !! id; b ← longitude !! id;
    Some (match i with 0 => a | 1 => b | 2 => fplus a b | _ => fminus a b end).
  (** n:452-453: the comparison *)
  Definition key_less (latitude longitude : list F) (g : fragment) (i l r : nat) : bool :=
    match sort_key latitude longitude g i l, sort_key latitude longitude g i r with Some a, Some b => flt a b | _, _ => false end.
  (** std::nth_element may only be called with a strict weak order: irreflexive, transitive, and so is being incomparable. *)
  Definition is_weak_order (n : nat) (less : nat -> nat -> bool) : bool :=
    forallb (fun x => negb (less x x) && forallb (fun y => forallb (fun z =>
      implb (less x y && less y z) (less x z) && implb (less x z) (less x y || less y z)) (seq 0 n)) (seq 0 n)) (seq 0 n).
  (** n:868-876 with the keys. To find the element at nth every element must be compared, so all keys are read; the
      last two keys read both coordinates. *)
  Definition coordinate_separator (latitude longitude : list F) (u : unit) (g : fragment) : option (unit * list bool) :=
    chk (forallb (fun id => (id <? length latitude) && (id <? length longitude)) (fr_global g));;
    chk (forallb (fun i => is_weak_order (fr_nodes g) (key_less latitude longitude g i)) [0; 1; 2; 3]);;
    inertial_separator asserts (fun g b i => place_nodes (side_size (fr_nodes g) b) (fr_nodes g) (key_less latitude longitude g i)) garbage u g.
  (** n:851-879 *)
  Definition nested_dissection_order_by_coordinates (n : nat) (tail head : list nat) (latitude longitude : list F) : option (list nat) :=
    g ← make_graph_fragment asserts n tail head;
    nested_dissection_order asserts (coordinate_separator latitude longitude) (S n) tt g.

  (** o:37-56; [value] gives the number that four bytes stand for *)
  Definition compute_nested_dissection_order (value : list N -> F) (first_out_file head_file latitude_file longitude_file : list N) : option (result (list N)) :=
    andthen (load_ids first_out_file) (fun first_out =>
    tail ← invert_inverse_vector first_out;
    andthen (load_ids head_file) (fun head =>
    andthen (Some (load_vector 4 value latitude_file)) (fun latitude =>
    andthen (Some (load_vector 4 value longitude_file)) (fun longitude =>
    order ← nested_dissection_order_by_coordinates (length first_out - 1) tail head latitude longitude;
    Some (Ret (save_ids order)))))).
End Coordinates.
