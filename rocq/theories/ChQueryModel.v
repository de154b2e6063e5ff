(** Model of class ContractionHierarchyQuery (src/contraction_hierarchy.cpp:1426-2195,
    include/routingkit/contraction_hierarchy.h:104-220), on top of the models of MinIDQueue
    and TimestampFlags. [None] is undefined behaviour, a violated assertion or a loop that does not
    end. invalid_id is [None] of an [option nat]; sums of weights are 32 bits wide. *)
From Verif Require Import Base IdQueueModel IdSetModel ChBuildModel.

(** C++ unsigned addition. *)
Definition sum32 (a b : N) : N := ((a + b) mod 4294967296)%N.

(** ** The object *)
(** contraction_hierarchy.h:212-219 *)
Inductive cstate := CInitialized | CRun | CSourcePinned | CSourceRun | CTargetPinned | CTargetRun.
Global Instance cstate_eq_dec : EqDecision cstate.
Proof. solve_decision. Defined.

(** The members of one direction (contraction_hierarchy.h:204-208): was_*_pushed, *_queue,
    *_tentative_distance, *_predecessor_node, *_predecessor_arc. *)
Record cside := mkCSide { s_pushed : flags; s_queue : queue; s_dist : list N;
  s_pnode : list (option nat); s_parc : list (option nat) }.
(** contraction_hierarchy.h:202-219. [cq_meet] is shortest_path_meeting_node, [cq_count] many_to_many_source_or_target_count, which
    the constructor leaves uninitialised ([None]). *)
Record cquery := mkCQuery { cq_ch : ch; cq_fw : cside; cq_bw : cside; cq_meet : option nat;
  cq_count : option nat; cq_state : cstate }.

(** contraction_hierarchy.h:49-51 *)
Definition ch_nodes (c : ch) : nat := length (ch_rank c).

(** :1426-1436; the vectors are value-initialised. *)
Definition new_cside (n : nat) : cside :=
  mkCSide (new_flags n) (new_queue n) (replicate n 0%N) (replicate n (Some 0)) (replicate n (Some 0)).
Definition new_cquery (c : ch) : cquery :=
  mkCQuery c (new_cside (ch_nodes c)) (new_cside (ch_nodes c)) None None CInitialized.

(** reset_all and clear on one direction (1441-1442, 1443-1444, 1830-1831, 1841-1842). *)
Definition clear_side (s : cside) : option cside :=
  q ← clear (s_queue s); Some (mkCSide (reset_all (s_pushed s)) q (s_dist s) (s_pnode s) (s_parc s)).
(** :1438-1450 *)
Definition cq_reset (q : cquery) : option cquery :=
  f ← clear_side (cq_fw q); b ← clear_side (cq_bw q);
  Some (mkCQuery (cq_ch q) f b None (cq_count q) CInitialized).
(** :1452-1460; the assignment from a new object takes over its uninitialised count. *)
Definition cq_reset_ch (q : cquery) (c : ch) : option cquery :=
  if decide (length (s_dist (cq_fw q)) = ch_nodes c) then
    q ← cq_reset q; Some (mkCQuery c (cq_fw q) (cq_bw q) (cq_meet q) (cq_count q) (cq_state q))
  else Some (new_cquery c).

(** :1469-1480, 1490-1501 *)
Definition side_add (c : ch) (external : nat) (d : N) (s : cside) : option cside :=
  x ← ch_rank c !! external;
  b ← contains_id (s_queue s) x;
  s ← (if negb b then
         q ← push (s_queue s) (x, d); t ← wr (s_dist s) x d; p ← wr (s_pnode s) x None;
         Some (mkCSide (s_pushed s) q t p (s_parc s))
       else
         old ← s_dist s !! x;
         if decide (d < old)%N then
           t ← wr (s_dist s) x d; '(_, q) ← decrease_key (s_queue s) (x, d);
           Some (mkCSide (s_pushed s) q t (s_pnode s) (s_parc s))
         else Some s);
  f ← set_flag (s_pushed s) x;
  Some (mkCSide f (s_queue s) (s_dist s) (s_pnode s) (s_parc s)).
(** :1462-1482 *)
Definition cq_add_source (q : cquery) (s : nat) (d : N) : option cquery :=
  _ ← chk (bool_decide (cq_state q = CInitialized \/ cq_state q = CTargetPinned));
  f ← side_add (cq_ch q) s d (cq_fw q);
  Some (mkCQuery (cq_ch q) f (cq_bw q) (cq_meet q) (cq_count q) (cq_state q)).
(** :1484-1503 *)
Definition cq_add_target (q : cquery) (t : nat) (d : N) : option cquery :=
  _ ← chk (bool_decide (cq_state q = CInitialized \/ cq_state q = CSourcePinned));
  b ← side_add (cq_ch q) t d (cq_bw q);
  Some (mkCQuery (cq_ch q) (cq_fw q) b (cq_meet q) (cq_count q) (cq_state q)).

(** ** Searches *)
(** The body of the loop of forward_expand_upward_ch_arcs_of_node (1520-1532), with the predecessors
    set as at 1588-1591 and 1613-1616. *)
Definition expand_arc (g : chside) (x : nat) (key : N) (a : nat) (s : cside) : option cside :=
  h ← cs_head g !! a; w ← cs_weight g !! a;
  let d := sum32 key w in
  b ← is_set (s_pushed s) h;
  if (b : bool) then
    old ← s_dist s !! h;
    if decide (d < old)%N then
      '(_, q) ← decrease_key (s_queue s) (h, d);
      t ← wr (s_dist s) h d; p ← wr (s_pnode s) h (Some x); e ← wr (s_parc s) h (Some a);
      Some (mkCSide (s_pushed s) q t p e)
    else Some s
  else if decide (d < inf_weight)%N then
    q ← push (s_queue s) (h, d);
    t ← wr (s_dist s) h d; f ← set_flag (s_pushed s) h;
    p ← wr (s_pnode s) h (Some x); e ← wr (s_parc s) h (Some a);
    Some (mkCSide f q t p e)
  else Some s.
(** :1507-1534 *)
Definition expand (g : chside) (x : nat) (key : N) (s : cside) : option cside :=
  lo ← cs_first_out g !! x; hi ← cs_first_out g !! S x;
  for_range lo hi (expand_arc g x key) s.

(** The loop 1542-1548 from arc [a] on, [cnt] arcs left. *)
Fixpoint can_stall_from (g : chside) (s : cside) (x cnt a : nat) : option bool :=
  match cnt with
  | O => Some false
  | S cnt =>
      y ← cs_head g !! a;
      b ← is_set (s_pushed s) y;
      if (b : bool) then
        dy ← s_dist s !! y; w ← cs_weight g !! a; dx ← s_dist s !! x;
        if decide (sum32 dy w <= dx)%N then Some true else can_stall_from g s x cnt (S a)
      else can_stall_from g s x cnt (S a)
  end.
(** :1536-1550; [g] is the other direction. *)
Definition can_stall (g : chside) (x : nat) (s : cside) : option bool :=
  lo ← cs_first_out g !! x; hi ← cs_first_out g !! S x;
  can_stall_from g s x (hi - lo) lo.

(** :1553-1594; [r] is the length of the best path found and its meeting node, [o] is the other side. *)
Definition settle_node (gf gb : chside) (o : cside) (s : cside) (r : N * option nat) : option (cside * (N * option nat)) :=
  '((x, key), q) ← pop (s_queue s);
  let s := mkCSide (s_pushed s) q (s_dist s) (s_pnode s) (s_parc s) in
  b ← is_set (s_pushed o) x;
  r ← (if (b : bool) then
         d ← s_dist o !! x;
         Some (if decide (sum32 key d < fst r)%N then (sum32 key d, Some x) else r)
       else Some r);
  stall ← can_stall gb x s;
  s ← (if (stall : bool) then Some s else expand gf x key s);
  Some (s, r).

(** :1642-1646, 1648-1652 *)
Definition finished (s : cside) (best : N) : option bool :=
  if q_empty (s_queue s) then Some true else
  '(_, k) ← peek (s_queue s); Some (bool_decide (best <= k)%N).

(** :1639-1681; every round pops a node from one of the queues. *)
Fixpoint run_loop (c : ch) (fuel : nat) (f b : cside) (r : N * option nat) (forward_next : bool) : option (cside * cside * (N * option nat)) :=
  match fuel with
  | O => None
  | S fuel =>
      ff ← finished f (fst r);
      bf ← finished b (fst r);
      if ff && bf then Some (f, b, r) else
      let next := if (ff : bool) then false else forward_next in
      let next := if (bf : bool) then true else next in
      if (next : bool) then
        '(f, r) ← settle_node (ch_fwd c) (ch_bwd c) b f r; run_loop c fuel f b r false
      else
        '(b, r) ← settle_node (ch_bwd c) (ch_fwd c) f b r; run_loop c fuel f b r true
  end.

(** :1626-1685; every node is popped at most once on each side. *)
Definition cq_run (q : cquery) : option cquery :=
  _ ← chk (negb (q_empty (s_queue (cq_fw q)))); _ ← chk (negb (q_empty (s_queue (cq_bw q))));
  _ ← chk (bool_decide (cq_state q = CInitialized));
  '(f, b, r) ← run_loop (cq_ch q) (S (2 * ch_nodes (cq_ch q))) (cq_fw q) (cq_bw q) (inf_weight, None) true;
  Some (mkCQuery (cq_ch q) f b (snd r) (cq_count q) CRun).

(** :1750-1757 *)
Definition cq_distance (q : cquery) : option N :=
  _ ← chk (bool_decide (cq_state q = CRun));
  match cq_meet q with
  | None => Some inf_weight
  | Some x => a ← s_dist (cq_fw q) !! x; b ← s_dist (cq_bw q) !! x; Some (sum32 a b)
  end.

(** The loops over the predecessors (1694-1695, 1706-1707, 1770-1775, 1782-1787, 1803-1807): the nodes
    and the arcs passed, and the last node. A predecessor is a lower node. *)
Fixpoint climb (s : cside) (fuel x : nat) : option (list nat * nat) :=
  match fuel with
  | O => None
  | S fuel =>
      o ← s_pnode s !! x;
      match o with
      | None => Some ([], x)
      | Some y =>
          b ← is_set (s_pushed s) x; _ ← chk b;
          a ← s_parc s !! x; a ← a;
          '(l, z) ← climb s fuel y; Some (a :: l, z)
      end
  end.

(** :1687-1697, 1699-1710; the assertion of the loops above is not in these functions. *)
Fixpoint climb_end (s : cside) (fuel x : nat) : option nat :=
  match fuel with
  | O => None
  | S fuel => o ← s_pnode s !! x; match o with None => Some x | Some y => climb_end s fuel y end
  end.
Definition cq_used (q : cquery) (s : cside) : option (option nat) :=
  _ ← chk (bool_decide (cq_state q = CRun));
  match cq_meet q with
  | None => Some None
  | Some x => z ← climb_end s (length (s_pnode s)) x; o ← ch_order (cq_ch q) !! z; Some (Some o)
  end.
Definition cq_used_source (q : cquery) := cq_used q (cq_fw q).
Definition cq_used_target (q : cquery) := cq_used q (cq_bw q).

(** ** Unpacking *)
(** :1725-1747; the pairs (arc, head) in the order in which on_new_input_arc is called. [d] is true for
    unpack_forward_arc. The tail of the arc falls with every call, so the node count is enough fuel. *)
Fixpoint ch_unpack (c : ch) (fuel : nat) (d : bool) (a : nat) : option (list (nat * nat)) :=
  match fuel with
  | O => None
  | S fuel =>
      let g := if d then ch_fwd c else ch_bwd c in
      orig ← cs_orig g !! a; x ← cs_first g !! a; y ← cs_second g !! a;
      if (orig : bool) then Some [(x, y)] else
      _ ← chk (bool_decide (x < length (cs_head (ch_bwd c)))); _ ← chk (bool_decide (y < length (cs_head (ch_fwd c))));
      p ← ch_unpack c fuel false x; q ← ch_unpack c fuel true y; Some (p ++ q)
  end.

(** The unpacked arcs of a list of arcs, from the first to the last (1777-1779, 1782-1788). *)
Definition unpack_all (c : ch) (d : bool) (l : list nat) : option (list (nat * nat)) :=
  ll ← mapM (ch_unpack c (ch_nodes c) d) l; Some (concat ll).

(** :1760-1791 and 1794-1824: the first node and all arcs with their heads. *)
Definition cq_path (q : cquery) : option (option (nat * list (nat * nat))) :=
  _ ← chk (bool_decide (cq_state q = CRun));
  match cq_meet q with
  | None => Some None
  | Some x =>
      '(up, s) ← climb (cq_fw q) (length (s_pnode (cq_fw q))) x;
      o ← ch_order (cq_ch q) !! s;
      p ← unpack_all (cq_ch q) true (rev up);
      '(down, _) ← climb (cq_bw q) (length (s_pnode (cq_bw q))) x;
      r ← unpack_all (cq_ch q) false down;
      Some (Some (o, p ++ r))
  end.
(** :1760-1791 *)
Definition cq_arc_path (q : cquery) : option (list nat) :=
  p ← cq_path q; Some (match p with None => [] | Some (_, l) => l.*1 end).
(** :1794-1824 *)
Definition cq_node_path (q : cquery) : option (list nat) :=
  p ← cq_path q; Some (match p with None => [] | Some (s, l) => s :: l.*2 end).

(** ** Pinned queries *)
(** :1826-1835 *)
Definition cq_reset_source (q : cquery) : option cquery :=
  _ ← chk (bool_decide (cq_state q = CTargetPinned \/ cq_state q = CTargetRun));
  f ← clear_side (cq_fw q); Some (mkCQuery (cq_ch q) f (cq_bw q) (cq_meet q) (cq_count q) CTargetPinned).
(** :1837-1846 *)
Definition cq_reset_target (q : cquery) : option cquery :=
  _ ← chk (bool_decide (cq_state q = CSourcePinned \/ cq_state q = CSourceRun));
  b ← clear_side (cq_bw q); Some (mkCQuery (cq_ch q) (cq_fw q) b (cq_meet q) (cq_count q) CSourcePinned).

(** [if(!q.contains_id(y)) q.push({y,y})] (1878-1879, 1890-1891) *)
Definition push_new (q : queue) (y : nat) : option queue :=
  b ← contains_id q y; if (b : bool) then Some q else push q (y, N.of_nat y).
(** :1882-1893; [cnt] is select_count. *)
Fixpoint pin_loop (g : chside) (fuel : nat) (q : queue) (select : list N) (cnt : nat) : option (queue * list N * nat) :=
  match fuel with
  | O => None
  | S fuel =>
      if q_empty q then Some (q, select, cnt) else
      '((x, _), q) ← pop q;
      select ← wr select cnt (N.of_nat x);
      lo ← cs_first_out g !! x; hi ← cs_first_out g !! S x;
      q ← for_range lo hi (fun xy q => y ← cs_head g !! xy; _ ← chk (bool_decide (x < y)); push_new q y) q;
      pin_loop g fuel q select (S cnt)
  end.
(** :1860-1896. The pinned side's predecessor nodes hold target_list, its distances hold select_list. *)
Definition pin (c : ch) (g : chside) (l : list nat) (s : cside) : option (cside * nat) :=
  '(tl, q) ← for_range 0 (length l) (fun i '(tl, q) =>
      t ← l !! i; x ← ch_rank c !! t; tl ← wr tl i (Some x); q ← push_new q x; Some (tl, q)) (s_pnode s, s_queue s);
  '(q, select, cnt) ← pin_loop g (S (ch_nodes c)) q (s_dist s) 0;
  let select := rev (take cnt select) ++ drop cnt select in
  Some (mkCSide (s_pushed s) q select tl (s_parc s), cnt).
(** :1986-2007 *)
Definition cq_pin_targets (q : cquery) (l : list nat) : option cquery :=
  _ ← chk (bool_decide (cq_state q = CInitialized));
  '(b, cnt) ← pin (cq_ch q) (ch_bwd (cq_ch q)) l (cq_bw q);
  Some (mkCQuery (cq_ch q) (cq_fw q) b (Some cnt) (Some (length l)) CTargetPinned).
(** :2009-2027 *)
Definition cq_pin_sources (q : cquery) (l : list nat) : option cquery :=
  _ ← chk (bool_decide (cq_state q = CInitialized));
  '(f, cnt) ← pin (cq_ch q) (ch_fwd (cq_ch q)) l (cq_fw q);
  Some (mkCQuery (cq_ch q) f (cq_bw q) (Some cnt) (Some (length l)) CSourcePinned).

(** :1596-1620 *)
Fixpoint full_search (g : chside) (fuel : nat) (s : cside) : option cside :=
  match fuel with
  | O => None
  | S fuel =>
      if q_empty (s_queue s) then Some s else
      '((x, key), q) ← pop (s_queue s);
      s ← expand g x key (mkCSide (s_pushed s) q (s_dist s) (s_pnode s) (s_parc s));
      full_search g fuel s
  end.

(** :1942-1950 *)
Definition sweep_arcs (g : chside) (t : list N) (x : nat) (st : N * option nat) : option (N * option nat) :=
  lo ← cs_first_out g !! x; hi ← cs_first_out g !! S x;
  for_range lo hi (fun xy '(dist, pred) =>
      y ← cs_head g !! xy; dy ← t !! y; w ← cs_weight g !! xy;
      Some (if decide (sum32 dy w < dist)%N then (sum32 dy w, Some xy) else (dist, pred))) st.
(** :1934-1960 *)
Definition sweep_node (g : chside) (x : nat) (s : cside) : option cside :=
  b ← is_set (s_pushed s) x;
  dist ← (if (b : bool) then s_dist s !! x else Some inf_weight);
  '(dist, pred) ← sweep_arcs g (s_dist s) x (dist, None);
  match pred with
  | Some a =>
      t ← wr (s_dist s) x dist; e ← wr (s_parc s) x (Some a); f ← reset_one (s_pushed s) x;
      Some (mkCSide f (s_queue s) t (s_pnode s) e)
  | None =>
      if decide (dist = inf_weight) then
        t ← wr (s_dist s) x inf_weight; e ← wr (s_parc s) x None;
        Some (mkCSide (s_pushed s) (s_queue s) t (s_pnode s) e)
      else Some s
  end.
(** :1909-1962; [select] and [cnt] are select_list and select_count. *)
Definition pinned_run (c : ch) (gf gb : chside) (select : list N) (cnt : nat) (s : cside) : option cside :=
  s ← full_search gf (S (ch_nodes c)) s;
  for_range 0 cnt (fun i s => x ← select !! i; sweep_node gb (N.to_nat x) s) s.
(** :2033-2055 *)
Definition cq_run_to_targets (q : cquery) : option cquery :=
  _ ← chk (negb (q_empty (s_queue (cq_fw q))));
  _ ← chk (bool_decide (cq_state q = CTargetPinned));
  cnt ← cq_meet q;
  f ← pinned_run (cq_ch q) (ch_fwd (cq_ch q)) (ch_bwd (cq_ch q)) (s_dist (cq_bw q)) cnt (cq_fw q);
  Some (mkCQuery (cq_ch q) f (cq_bw q) (cq_meet q) (cq_count q) CTargetRun).
(** :2058-2082 *)
Definition cq_run_to_sources (q : cquery) : option cquery :=
  _ ← chk (negb (q_empty (s_queue (cq_bw q))));
  _ ← chk (bool_decide (cq_state q = CSourcePinned));
  cnt ← cq_meet q;
  b ← pinned_run (cq_ch q) (ch_bwd (cq_ch q)) (ch_fwd (cq_ch q)) (s_dist (cq_fw q)) cnt (cq_bw q);
  Some (mkCQuery (cq_ch q) (cq_fw q) b (cq_meet q) (cq_count q) CSourceRun).

(** The target list: the first [cnt] entries of [l]. *)
Definition pinned_list (l : list (option nat)) (cnt : nat) : option (list nat) :=
  mapM (fun i => o ← l !! i; o) (seq 0 cnt).
(** :1964-1984 *)
Definition extract_distances (pinned s : cside) (cnt : nat) : option (list N) :=
  l ← pinned_list (s_pnode pinned) cnt; mapM (fun x => s_dist s !! x) l.
(** :2085-2095 *)
Definition cq_distances_to_targets (q : cquery) : option (list N) :=
  _ ← chk (bool_decide (cq_state q = CTargetRun));
  cnt ← cq_count q; extract_distances (cq_bw q) (cq_fw q) cnt.
(** :2098-2107 *)
Definition cq_distances_to_sources (q : cquery) : option (list N) :=
  _ ← chk (bool_decide (cq_state q = CSourceRun));
  cnt ← cq_count q; extract_distances (cq_fw q) (cq_bw q) cnt.

(** :2128-2132, a walk down from the meeting node *)
Fixpoint descend (g : chside) (s : cside) (fuel x : nat) : option nat :=
  match fuel with
  | O => None
  | S fuel =>
      b ← is_set (s_pushed s) x;
      if (b : bool) then Some x else
      a ← s_parc s !! x; a ← a; y ← cs_head g !! a; _ ← chk (bool_decide (x < y));
      descend g s fuel y
  end.
(** :2133-2138 *)
Fixpoint climb_up (s : cside) (fuel x : nat) : option nat :=
  match fuel with
  | O => None
  | S fuel =>
      o ← s_pnode s !! x;
      match o with
      | None => Some x
      | Some y => b ← is_set (s_pushed s) x; _ ← chk b; _ ← chk (bool_decide (y < x)); climb_up s fuel y
      end
  end.
(** :2124-2140; the inner option is invalid_id *)
Definition used_of (c : ch) (g : chside) (s : cside) (x : nat) : option (option nat) :=
  b ← is_set (s_pushed s) x;
  unreached ← (if (b : bool) then Some false else a ← s_parc s !! x; Some (bool_decide (a = None)));
  if (unreached : bool) then Some None else
  y ← descend g s (ch_nodes c) x; z ← climb_up s (ch_nodes c) y;
  o ← ch_order c !! z; Some (Some o).
(** :2109-2143 *)
Definition used_list (c : ch) (g : chside) (pinned s : cside) (cnt : nat) : option (list (option nat)) :=
  l ← pinned_list (s_pnode pinned) cnt; mapM (used_of c g s) l.
(** :2145-2169 *)
Definition cq_used_sources_to_targets (q : cquery) : option (list (option nat)) :=
  _ ← chk (bool_decide (cq_state q = CTargetRun));
  cnt ← cq_count q; used_list (cq_ch q) (ch_bwd (cq_ch q)) (cq_bw q) (cq_fw q) cnt.
(** :2171-2195 *)
Definition cq_used_targets_to_sources (q : cquery) : option (list (option nat)) :=
  _ ← chk (bool_decide (cq_state q = CSourceRun));
  cnt ← cq_count q; used_list (cq_ch q) (ch_fwd (cq_ch q)) (cq_fw q) (cq_bw q) cnt.
