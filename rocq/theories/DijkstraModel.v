(** Model of include/routingkit/dijkstra.h, on top of the models of MinIDQueue and
    TimestampFlags. [None] is undefined behaviour or a violated assertion. *)
From Verif Require Import Base IdQueueModel IdSetModel.

(** The three arrays the object keeps pointers to (dijkstra.h:156-158). *)
Record graph := mkGraph { g_first_out : list nat; g_tail : list nat; g_head : list nat }.
(** dijkstra.h:16, [first_out.size()-1] *)
Definition node_count (g : graph) : nat := length (g_first_out g) - 1.

(** dijkstra.h:149-158. [pred] holds invalid_id as [None]. *)
Record dijkstra := mkDijkstra { d_graph : graph; tentative : list N; pred : list (option nat);
  was_popped : flags; d_queue : queue }.

(** dijkstra.h:15-29; the vectors are value-initialised with 0. *)
Definition new_dijkstra (g : graph) : dijkstra :=
  let n := node_count g in
  mkDijkstra g (replicate n 0%N) (replicate n (Some 0)) (new_flags n) (new_queue n).

(** dijkstra.h:31-35 *)
Definition d_reset (d : dijkstra) : option dijkstra :=
  q ← clear (d_queue d);
  Some (mkDijkstra (d_graph d) (tentative d) (pred d) (reset_all (was_popped d)) q).

(** std::vector::resize *)
Definition resize_to {A} (n : nat) (x : A) (l : list A) : list A := take n l ++ replicate (n - length l) x.

(** dijkstra.h:37-60 *)
Definition d_reset_graph (d : dijkstra) (g : graph) : option dijkstra :=
  if decide (length (g_first_out g) = length (g_first_out (d_graph d))) then
    q ← clear (d_queue d);
    Some (mkDijkstra g (tentative d) (pred d) (reset_all (was_popped d)) q)
  else
    let n := node_count g in
    Some (mkDijkstra g (resize_to n 0%N (tentative d)) (resize_to n (Some 0) (pred d)) (new_flags n) (new_queue n)).

(** dijkstra.h:62-68 *)
Definition add_source (d : dijkstra) (id : nat) (departure_time : N) : option dijkstra :=
  t ← wr (tentative d) id departure_time;
  p ← wr (pred d) id None;
  q ← push (d_queue d) (id, departure_time);
  Some (mkDijkstra (d_graph d) t p (was_popped d) q).

(** dijkstra.h:70-72 *)
Definition is_finished (d : dijkstra) : bool := q_empty (d_queue d).
(** dijkstra.h:74-77 *)
Definition was_node_reached (d : dijkstra) (x : nat) : option bool := is_set (was_popped d) x.

Definition word : N := 4294967296.

(** dijkstra.h:92-106. [get_weight] is the functor of line 94: the arc's weight at the
    time the arc is entered; [None] would be an access outside of the weight vector. *)
Definition relax_arc (g : graph) (f : flags) (get_weight : nat -> N -> option N) (key : N)
    (a : nat) (st : list (option nat) * queue) : option (list (option nat) * queue) :=
  let '(p, q) := st in
  h ← g_head g !! a;
  popped ← is_set f h;
  if (popped : bool) then Some (p, q) else
  w ← get_weight a key;
  if decide (w < inf_weight)%N then
    c ← contains_id q h;
    if (c : bool) then
      '(b, q) ← decrease_key q (h, (key + w) mod word)%N;
      if (b : bool) then p ← wr p h (Some a); Some (p, q) else Some (p, q)
    else
      q ← push q (h, (key + w) mod word)%N;
      p ← wr p h (Some a); Some (p, q)
  else Some (p, q).

(** dijkstra.h:84-108 *)
Definition settle (d : dijkstra) (get_weight : nat -> N -> option N) : option ((nat * N) * dijkstra) :=
  '((id, key), q) ← pop (d_queue d);
  t ← wr (tentative d) id key;
  f ← set_flag (was_popped d) id;
  lo ← g_first_out (d_graph d) !! id; hi ← g_first_out (d_graph d) !! S id;
  '(p, q) ← for_range lo hi (relax_arc (d_graph d) f get_weight key) (pred d, q);
  Some ((id, key), mkDijkstra (d_graph d) t p f q).

(** dijkstra.h:161-172 *)
Definition scalar_weight (weight : list N) (arc : nat) (departure_time : N) : option N := weight !! arc.

(** dijkstra.h:110-116 *)
Definition get_distance_to (d : dijkstra) (x : nat) : option N :=
  b ← is_set (was_popped d) x;
  if (b : bool) then tentative d !! x else Some inf_weight.

(** dijkstra.h:124-129: the nodes from [x] back to the source. Fuel: a walk without
    repetition has at most [node_count] nodes; a longer one would not terminate. *)
Fixpoint node_walk (p : list (option nat)) (tl : list nat) (fuel x : nat) : option (list nat) :=
  match fuel with
  | O => None
  | S fuel' =>
      a ← p !! x;
      match a with
      | None => Some [x]
      | Some a => y ← tl !! a; r ← node_walk p tl fuel' y; Some (x :: r)
      end
  end.
(** dijkstra.h:139-143 *)
Fixpoint arc_walk (p : list (option nat)) (tl : list nat) (fuel x : nat) : option (list nat) :=
  match fuel with
  | O => None
  | S fuel' =>
      a ← p !! x;
      match a with
      | None => Some []
      | Some a => y ← tl !! a; r ← arc_walk p tl fuel' y; Some (a :: r)
      end
  end.
(** dijkstra.h:118-133 *)
Definition get_node_path_to (d : dijkstra) (x : nat) : option (list nat) :=
  b ← was_node_reached d x;
  if (b : bool) then r ← node_walk (pred d) (g_tail (d_graph d)) (node_count (d_graph d)) x; Some (rev r)
  else Some [].
(** dijkstra.h:135-147 *)
Definition get_arc_path_to (d : dijkstra) (x : nat) : option (list nat) :=
  b ← was_node_reached d x;
  if (b : bool) then r ← arc_walk (pred d) (g_tail (d_graph d)) (node_count (d_graph d)) x; Some (rev r)
  else Some [].

(** Histories of calls on one object. *)
Inductive dop := DReset | DResetGraph (g : graph) | DSource (id : nat) (t : N)
  | DSettle (w : nat -> N -> option N) | DFinished | DReached (x : nat) | DDist (x : nat)
  | DNodePath (x : nat) | DArcPath (x : nat).
Inductive dout := DUnit | DBool (b : bool) | DNum (v : N) | DPair (id : nat) (k : N) | DList (l : list nat).
(** One public call of the class (dijkstra.h:31-147). *)
Definition d_step (d : dijkstra) (o : dop) : option (dout * dijkstra) :=
  match o with
  | DReset => d ← d_reset d; Some (DUnit, d)
  | DResetGraph g => d ← d_reset_graph d g; Some (DUnit, d)
  | DSource id t => d ← add_source d id t; Some (DUnit, d)
  | DSettle w => '((id, k), d) ← settle d w; Some (DPair id k, d)
  | DFinished => Some (DBool (is_finished d), d)
  | DReached x => b ← was_node_reached d x; Some (DBool b, d)
  | DDist x => v ← get_distance_to d x; Some (DNum v, d)
  | DNodePath x => l ← get_node_path_to d x; Some (DList l, d)
  | DArcPath x => l ← get_arc_path_to d x; Some (DList l, d)
  end.
Fixpoint d_run (d : dijkstra) (os : list dop) : option (list dout * dijkstra) :=
  match os with
  | [] => Some ([], d)
  | o :: os => '(r, d) ← d_step d o; '(rs, d) ← d_run d os; Some (r :: rs, d)
  end.

(** The typical use: add the sources, then settle [k] nodes. The result lists the
    settled nodes with their distances. *)
Definition add_sources (d : dijkstra) (ss : list (nat * N)) : option dijkstra :=
  for_each ss (fun s d => add_source d (fst s) (snd s)) d.
Fixpoint settle_n (k : nat) (d : dijkstra) (w : nat -> N -> option N) : option (list (nat * N) * dijkstra) :=
  match k with
  | O => Some ([], d)
  | S k => '(r, d) ← settle d w; '(rs, d) ← settle_n k d w; Some (r :: rs, d)
  end.
