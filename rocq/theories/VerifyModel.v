(** Model of include/routingkit/min_max.h ([h:]) and src/verify.cpp (without prefix): smallest and largest
    elements, and the checks of the arrays that the programs read.

    [Throw] is an exception, [None] is undefined behaviour. Numbers that are compared only are [nat];
    vectors have less than 2^32 elements, so that node_count (14) is not cut off. *)
From Verif Require Import Base ProtobufModel ChFileModel.

(** ** min_max.h *)
Section best.
Context {T : Type} (better : T -> T -> bool).
(** h:21-29 with [better x y := x < y] and h:45-53 with [better x y := x > y]; the assertion is a precondition (see [element_of]) *)
Definition first_position_of (v : list T) : option nat :=
  for_range 1 (length v) (fun i pos => x ← v !! i; y ← v !! pos; Some (if better x y then i else pos)) 0.
(** h:31-34 and h:55-58; for an empty vector the access is out of range *)
Definition element_of (v : list T) : option T := pos ← first_position_of v; v !! pos.
(** h:36-42 and h:60-66 *)
Definition element_of_or (v : list T) (empty_value : T) : option T :=
  match v with [] => Some empty_value | _ => element_of v end.
(** h:9-13 and h:15-19: the new value of [x] *)
Definition to_best (x y : T) : T := if better y x then y else x.
End best.
(** h:55-58 and h:31-34 for unsigned *)
Definition max_element_of (v : list nat) : option nat := element_of (fun x y => y <? x) v.
Definition min_element_of (v : list nat) : option nat := element_of (fun x y => x <? y) v.

(** ** verify.cpp *)
(** std::is_sorted *)
Fixpoint std_is_sorted (v : list nat) : bool :=
  match v with
  | x :: ((y :: _) as v') => if y <? x then false else std_is_sorted v'
  | _ => true
  end.
(** A test with an exception; [b] is the condition of the [if] in front of [throw]. *)
Definition throw_if (b : bool) : option (result ()) := Some (if b then Throw else Ret tt).

(** 8-22. [front] and [back] of an empty vector are undefined. *)
Definition check_if_graph_is_valid (first_out head : list nat) : option (result ()) :=
  front ← first_out !! 0; back ← last first_out;
  andthen (throw_if (negb (front =? 0))) (fun _ =>
  andthen (throw_if (negb (back =? length head))) (fun _ =>
  let node_count := length first_out - 1 in
  andthen (throw_if (negb (std_is_sorted first_out))) (fun _ =>
  throw_if (existsb (fun x => node_count <=? x) head)))).

(** 36-39 *)
Definition each_arc_has_one (first_ipp_of_arc : list nat) : option (result ()) :=
  for_range 1 (length first_ipp_of_arc) (fun i r =>
    andthen (Some r) (fun _ => x ← first_ipp_of_arc !! (i - 1); y ← first_ipp_of_arc !! i; throw_if (x =? y))) (Ret tt).
(** 44-46; the range has to lie in the vector *)
Definition sorted_within_arcs (first_ipp_of_arc ipp_departure_time : list nat) : option (result ()) :=
  for_range 0 (length first_ipp_of_arc - 1) (fun a r =>
    andthen (Some r) (fun _ =>
      b ← first_ipp_of_arc !! a; e ← first_ipp_of_arc !! (a + 1);
      _ ← chk ((b <=? e) && (e <=? length ipp_departure_time));
      throw_if (negb (std_is_sorted (take (e - b) (drop b ipp_departure_time)))))) (Ret tt).
(** 24-51 *)
Definition check_if_arc_ipp_are_valid (period : nat) (first_ipp_of_arc ipp_departure_time ipp_travel_time : list nat) : option (result ()) :=
  front ← first_ipp_of_arc !! 0; back ← last first_ipp_of_arc;
  andthen (throw_if (negb (front =? 0))) (fun _ =>
  andthen (throw_if (negb (back =? length ipp_departure_time))) (fun _ =>
  andthen (throw_if (negb (std_is_sorted first_ipp_of_arc))) (fun _ =>
  andthen (each_arc_has_one first_ipp_of_arc) (fun _ =>
  andthen (throw_if (negb (length ipp_travel_time =? length ipp_departure_time))) (fun _ =>
  andthen (sorted_within_arcs first_ipp_of_arc ipp_departure_time) (fun _ =>
  throw_if (existsb (fun x => period <=? x) ipp_departure_time))))))).
(** 53-64. The subtraction is one of size_t: an empty vector does not have the size of [head] either. *)
Definition check_if_td_graph_is_valid (period : nat) (first_out head first_ipp_of_arc ipp_departure_time ipp_travel_time : list nat) : option (result ()) :=
  andthen (check_if_graph_is_valid first_out head) (fun _ =>
  andthen (throw_if (match first_ipp_of_arc with [] => true | _ :: l => negb (length head =? length l) end)) (fun _ =>
  check_if_arc_ipp_are_valid period first_ipp_of_arc ipp_departure_time ipp_travel_time)).
(** 69-92 *)
Definition check_if_sst_queries_are_valid (period node_count : nat) (source source_time target rank : list nat) : option (result ()) :=
  andthen (throw_if (existsb (fun x => node_count <=? x) source)) (fun _ =>
  andthen (throw_if (existsb (fun x => node_count <=? x) target)) (fun _ =>
  andthen (throw_if (existsb (fun x => period <=? x) source_time)) (fun _ =>
  andthen (throw_if (negb (length source_time =? length source))) (fun _ =>
  andthen (throw_if (negb (length target =? length source))) (fun _ =>
  throw_if (negb (length rank =? length source))))))).
