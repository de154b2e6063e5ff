(** src/nested_dissection.cpp: BlockingFlow. Line numbers refer to that file if no other is named. A BitVector is the list
    of its bits (see BitVectorModel for the words behind it). *)
From Verif Require Import Base.

(** include/routingkit/nested_dissection.h:14-28 *)
Record fragment := mkFragment {
  fr_global : list nat; fr_first_out : list nat; fr_tail : list nat; fr_head : list nat; fr_back : list nat }.
(** nested_dissection.h:21-27 *)
Definition fr_nodes (g : fragment) : nat := length (fr_global g).
Definition fr_arcs (g : fragment) : nat := length (fr_tail g).

(** nested_dissection.h:34-38 *)
Record cut_side := mkCut { c_count : nat; c_size : nat; c_side : list bool }.

(** nested_dissection.h:42-54 *)
Record flow := mkFlow { f_source : list bool; f_target : list bool; f_intensity : nat; f_sat : list bool; f_blocked : list bool; f_finished : bool }.

(** :85-106. What is_arc_blocked starts with does not matter: it is uninitialised. *)
Definition make_flow (g : fragment) (source target garbage : list bool) : flow :=
  mkFlow source target 0 (replicate (fr_arcs g) false) garbage false.

Section Flow.
  Context (g : fragment).

  (** The local variables of compute_blocking_flow (108-122). *)
  Record bfs := mkBfs { b_same : list bool; b_pushed : list bool; b_blocked : list bool; b_queue : list nat; b_end : nat; b_found : bool }.

  (** :133-149 *)
  Definition bfs_arc (target sat : list bool) (xy : nat) (s : bfs) : option bfs :=
    saturated ← sat !! xy;
    if (saturated : bool) then blocked ← wr (b_blocked s) xy true; Some (mkBfs (b_same s) (b_pushed s) blocked (b_queue s) (b_end s) (b_found s))
    else
      y ← fr_head g !! xy;
      same ← b_same s !! y;
      if (same : bool) then blocked ← wr (b_blocked s) xy true; Some (mkBfs (b_same s) (b_pushed s) blocked (b_queue s) (b_end s) (b_found s))
      else
        t ← target !! y;
        if (t : bool) then Some (mkBfs (b_same s) (b_pushed s) (b_blocked s) (b_queue s) (b_end s) true)
        else
          pushed ← b_pushed s !! y;
          if (pushed : bool) then Some s
          else
            queue ← wr (b_queue s) (b_end s) y;
            pushed ← wr (b_pushed s) y true;
            Some (mkBfs (b_same s) pushed (b_blocked s) queue (b_end s + 1) (b_found s)).

  (** :131-150 *)
  Definition bfs_node (target sat : list bool) (i : nat) (s : bfs) : option bfs :=
    x ← b_queue s !! i;
    lo ← fr_first_out g !! x;
    hi ← fr_first_out g !! (x + 1);
    for_range lo hi (bfs_arc target sat) s.

  (** :124-156; every round takes at least one node from the queue, so that [fuel] need not exceed the number of nodes. *)
  Fixpoint bfs_loop (target sat : list bool) (fuel queue_begin level_end : nat) (s : bfs) : option bfs :=
    if queue_begin =? b_end s then Some s else
    match fuel with
    | 0 => None
    | S fuel =>
      same ← for_range queue_begin level_end (fun i same => x ← b_queue s !! i; wr same x true) (b_same s);
      s ← for_range queue_begin level_end (bfs_node target sat) (mkBfs same (b_pushed s) (b_blocked s) (b_queue s) (b_end s) (b_found s));
      bfs_loop target sat fuel level_end (b_end s) s
    end.

  (** :113-120: the marked nodes in a new array. *)
  Definition collect (mark : list bool) : option (list nat * nat) :=
    for_range 0 (fr_nodes g) (fun x '(queue, queue_end) =>
      b ← mark !! x; if (b : bool) then queue ← wr queue queue_end x; Some (queue, queue_end + 1) else Some (queue, queue_end))
      (replicate (fr_nodes g) 0, 0).

  (** :107-157; reset_all gives a vector of the size of the old one. *)
  Definition compute_blocking_flow (source target sat blocked : list bool) : option (bool * list bool) :=
    '(queue, queue_end) ← collect source;
    s ← bfs_loop target sat (fr_nodes g) 0 queue_end
      (mkBfs (replicate (fr_nodes g) false) (replicate (fr_nodes g) false) (replicate (length blocked) false) queue queue_end false);
    Some (b_found s, b_blocked s).

  (** :163-168; [n] is the number of arcs that are left. *)
  Fixpoint first_free (blocked : list bool) (n xy : nat) : option (option nat) :=
    match n with
    | 0 => Some None
    | S n => b ← blocked !! xy; if (b : bool) then first_free blocked n (xy + 1) else Some (Some xy)
    end.
  (** :163-168 *)
  Definition find_free (blocked : list bool) (x : nat) : option (option nat) :=
    lo ← fr_first_out g !! x; hi ← fr_first_out g !! (x + 1); first_free blocked (hi - lo) lo.

  (** The local variables of augment_all_non_blocked_path (160-176). *)
  Record aug := mkAug { a_node : list nat; a_arc : list nat; a_len : nat; a_sat : list bool; a_blocked : list bool; a_paths : nat }.

  (** :191-201; [asserts] is whether assertions are compiled in. *)
  Definition augment_arc (asserts : bool) (arcs : list nat) (i : nat) (s : list bool * list bool) : option (list bool * list bool) :=
    let '(sat, blocked) := s in
    a ← arcs !! i;
    sa ← sat !! a;
    chk (implb asserts (negb sa));;
    blocked ← wr blocked a true;
    b ← fr_back g !! a;
    sb ← sat !! b;
    if (sb : bool) then sat ← wr sat b false; Some (sat, blocked) else sat ← wr sat a true; Some (sat, blocked).

  (** :177-206 *)
  Fixpoint aug_loop (asserts : bool) (target : list bool) (fuel : nat) (s : aug) : option aug :=
    match fuel with
    | 0 => None
    | S fuel =>
      x ← a_node s !! a_len s;
      r ← find_free (a_blocked s) x;
      match r with
      | None =>
        if a_len s =? 0 then Some s else
        a ← a_arc s !! (a_len s - 1);
        blocked ← wr (a_blocked s) a true;
        aug_loop asserts target fuel (mkAug (a_node s) (a_arc s) (a_len s - 1) (a_sat s) blocked (a_paths s))
      | Some xy =>
        y ← fr_head g !! xy;
        arcs ← wr (a_arc s) (a_len s) xy;
        nodes ← wr (a_node s) (a_len s + 1) y;
        t ← target !! y;
        if (t : bool) then
          '(sat, blocked) ← for_range 0 (a_len s + 1) (augment_arc asserts arcs) (a_sat s, a_blocked s);
          aug_loop asserts target fuel (mkAug nodes arcs 0 sat blocked (a_paths s + 1))
        else aug_loop asserts target fuel (mkAug nodes arcs (a_len s + 1) (a_sat s) (a_blocked s) (a_paths s))
      end
    end.

  (** :159-210; every round enters an arc or blocks one, so that 2 * arc_count + 1 rounds are enough for a node. *)
  Definition augment_all (asserts : bool) (source target sat blocked : list bool) : option (list bool * list bool * nat) :=
    s ← for_range 0 (fr_nodes g) (fun x s =>
      b ← source !! x;
      if (b : bool) then
        nodes ← wr (a_node s) 0 x; arcs ← wr (a_arc s) 0 x;
        aug_loop asserts target (2 * fr_arcs g + 1) (mkAug nodes arcs 0 (a_sat s) (a_blocked s) (a_paths s))
      else Some s)
      (mkAug (replicate (fr_nodes g) 0) (replicate (fr_nodes g) 0) 0 sat blocked 0);
    Some (a_sat s, a_blocked s, a_paths s).

  (** :408-415 *)
  Definition advance (asserts : bool) (f : flow) : option flow :=
    if f_finished f then Some f else
    '(found, blocked) ← compute_blocking_flow (f_source f) (f_target f) (f_sat f) (f_blocked f);
    if (found : bool) then
      '(sat, blocked, paths) ← augment_all asserts (f_source f) (f_target f) (f_sat f) blocked;
      Some (mkFlow (f_source f) (f_target f) (f_intensity f + paths) sat blocked false)
    else Some (mkFlow (f_source f) (f_target f) (f_intensity f) (f_sat f) blocked true).

  (** :234-243 and 270-279: which arcs are followed is the only difference; [free] says so. Arrays and counters: the stack,
      its end, the nodes on the side, their number. *)
  Definition side_arc (free : nat -> option bool) (xy : nat) (s : list nat * nat * list bool * nat) : option (list nat * nat * list bool * nat) :=
    let '(stack, stack_end, side, count) := s in
    b ← free xy;
    if (b : bool) then
      y ← fr_head g !! xy;
      m ← side !! y;
      if (m : bool) then Some s else
      stack ← wr stack stack_end y; side ← wr side y true; Some (stack, stack_end + 1, side, count + 1)
    else Some s.
  (** :232-245, 268-281; every node is put on the stack at most once: [fuel] need not exceed their number. *)
  Fixpoint side_loop (free : nat -> option bool) (fuel : nat) (s : list nat * nat * list bool * nat) : option (list bool * nat) :=
    let '(stack, stack_end, side, count) := s in
    if stack_end =? 0 then Some (side, count) else
    match fuel with
    | 0 => None
    | S fuel =>
      x ← stack !! (stack_end - 1);
      lo ← fr_first_out g !! x; hi ← fr_first_out g !! (x + 1);
      s ← for_range lo hi (side_arc free) (stack, stack_end - 1, side, count);
      side_loop free fuel s
    end.
  (** :217-230, 252-265 *)
  Definition side_start (mark : list bool) : option (list nat * nat * list bool * nat) :=
    for_range 0 (fr_nodes g) (fun x '(stack, stack_end, side, count) =>
      b ← mark !! x;
      if (b : bool) then stack ← wr stack stack_end x; side ← wr side x true; Some (stack, stack_end + 1, side, count + 1)
      else Some (stack, stack_end, side, count))
      (replicate (fr_nodes g) 0, 0, replicate (fr_nodes g) false, 0).

  (** :235, 316 and 271, 336 *)
  Definition free_out (sat : list bool) (xy : nat) : option bool := negb <$> sat !! xy.
  Definition free_in (sat : list bool) (xy : nat) : option bool := b ← fr_back g !! xy; negb <$> sat !! b.

  (** :214-247; is_finished_flag is asserted *)
  Definition get_source_cut (asserts : bool) (f : flow) : option cut_side :=
    chk (implb asserts (f_finished f));;
    s ← side_start (f_source f);
    '(side, count) ← side_loop (free_out (f_sat f)) (fr_nodes g) s;
    Some (mkCut count (f_intensity f) side).
  (** :249-283 *)
  Definition get_target_cut (asserts : bool) (f : flow) : option cut_side :=
    chk (implb asserts (f_finished f));;
    s ← side_start (f_target f);
    '(side, count) ← side_loop (free_in (f_sat f)) (fr_nodes g) s;
    Some (mkCut count (f_intensity f) side).

  (** The part of the local variables of get_balanced_cut that belongs to one of the sides (291-305): nodes on the side, their number,
      nodes behind saturated arcs and the number of these. The stack is empty between the calls. *)
  Record half := mkHalf { h_side : list bool; h_count : nat; h_pierce : list nat; h_pend : nat }.

  (** :311-322 and 331-342 *)
  Definition enlarge_arc (free : nat -> option bool) (xy : nat) (s : list nat * nat * half) : option (list nat * nat * half) :=
    let '(stack, stack_end, h) := s in
    y ← fr_head g !! xy;
    b ← free xy;
    if negb b then
      pierce ← wr (h_pierce h) (h_pend h) y;
      Some (stack, stack_end, mkHalf (h_side h) (h_count h) pierce (h_pend h + 1))
    else
      m ← h_side h !! y;
      if (m : bool) then Some s else
      side ← wr (h_side h) y true; stack ← wr stack stack_end y;
      Some (stack, stack_end + 1, mkHalf side (h_count h) (h_pierce h) (h_pend h)).
  (** :307-325 and 327-345 with the assertion at the end *)
  Fixpoint enlarge (asserts : bool) (free : nat -> option bool) (fuel : nat) (s : list nat * nat * half) : option (list nat * half) :=
    let '(stack, stack_end, h) := s in
    if stack_end =? 0 then
      chk (implb asserts (h_count h =? count_occ Bool.bool_dec (h_side h) true));; Some (stack, h)
    else
    match fuel with
    | 0 => None
    | S fuel =>
      x ← stack !! (stack_end - 1);
      lo ← fr_first_out g !! x; hi ← fr_first_out g !! (x + 1);
      s ← for_range lo hi (enlarge_arc free) (stack, stack_end - 1, mkHalf (h_side h) (h_count h + 1) (h_pierce h) (h_pend h));
      enlarge asserts free fuel s
    end.
  (** :347-357 *)
  Definition push_marked (mark : list bool) (stack : list nat) : option (list nat * nat) :=
    for_range 0 (fr_nodes g) (fun x '(stack, stack_end) =>
      b ← mark !! x; if (b : bool) then stack ← wr stack stack_end x; Some (stack, stack_end + 1) else Some (stack, stack_end))
      (stack, 0).

  (** :369-381, 386-398: the node that is added to the side, if there is one. *)
  Fixpoint find_pierce (h : half) (other : list bool) (pend : nat) : option (option (nat * nat)) :=
    match pend with
    | 0 => Some None
    | S pend =>
      y ← h_pierce h !! pend;
      b ← h_side h !! y;
      if (b : bool) then find_pierce h other pend else
      o ← other !! y;
      if (o : bool) then find_pierce h other pend else Some (Some (y, pend))
    end.
  (** :382-384, 399-401 *)
  Definition pierce (asserts : bool) (free : nat -> option bool) (stack : list nat) (h : half) (y pend : nat) : option (list nat * half) :=
    side ← wr (h_side h) y true;
    stack ← wr stack 0 y;
    enlarge asserts free (fr_nodes g) (stack, 1, mkHalf side (h_count h) (h_pierce h) pend).

  (** :367-403 *)
  Fixpoint balance_loop (asserts : bool) (sat : list bool) (intensity fuel : nat) (stack : list nat) (s t : half) : option cut_side :=
    match fuel with
    | 0 => None
    | S fuel =>
      if h_count s <=? h_count t then
        r ← find_pierce s (h_side t) (h_pend s);
        match r with
        | None => Some (mkCut (h_count s) intensity (h_side s))
        | Some (y, pend) => '(stack, s) ← pierce asserts (free_out sat) stack s y pend; balance_loop asserts sat intensity fuel stack s t
        end
      else
        r ← find_pierce t (h_side s) (h_pend t);
        match r with
        | None => Some (mkCut (h_count t) intensity (h_side t))
        | Some (y, pend) => '(stack, t) ← pierce asserts (free_in sat) stack t y pend; balance_loop asserts sat intensity fuel stack s t
        end
    end.

  (** :285-406; every round of the last loop adds a node to a side. *)
  Definition get_balanced_cut (asserts : bool) (f : flow) : option cut_side :=
    chk (implb asserts (f_finished f));;
    let empty := replicate (fr_arcs g) 0 in
    '(stack, stack_end) ← push_marked (f_source f) (replicate (fr_nodes g) 0);
    '(stack, s) ← enlarge asserts (free_out (f_sat f)) (fr_nodes g) (stack, stack_end, mkHalf (f_source f) 0 empty 0);
    '(stack, stack_end) ← push_marked (f_target f) stack;
    '(stack, t) ← enlarge asserts (free_in (f_sat f)) (fr_nodes g) (stack, stack_end, mkHalf (f_target f) 0 empty 0);
    balance_loop asserts (f_sat f) (f_intensity f) (fr_nodes g + 1) stack s t.
End Flow.

(** :476-482 *)
Definition pick_smaller_side (c : cut_side) : cut_side :=
  let n := length (c_side c) in
  if (n + 1) / 2 <=? c_count c then mkCut (n - c_count c) (c_size c) (negb <$> c_side c) else c.
