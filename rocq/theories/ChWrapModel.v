(** Model of the construction of a contraction hierarchy (src/contraction_hierarchy.cpp, [c:]) with the type unsigned of 32 bits.

    ChGraphModel and ChBuildModel compute with unbounded numbers. Here the same functions take an argument [red], which says what becomes of the result of an addition
    or multiplication: [wrap32] is what C++ does, [checked32] stops when a result does not fit, [exact] keeps it. Functions that do not compute with numbers are those of
    ChGraphModel and ChBuildModel. *)
From Verif Require Import Base PermutationModel GraphUtilModel IdQueueModel IdSetModel ChCleanModel ChGraphModel ChBuildModel.

(** The type unsigned of c:180-185, 229-593 *)
Definition exact (x : N) : option N := Some x.
Definition wrap32 (x : N) : option N := Some (x mod 2 ^ 32)%N.
Definition checked32 (x : N) : option N := if decide (x < 2 ^ 32)%N then Some x else None.

Section construction.
Context (red : N -> option N).

(** c:316-317, 338-339, 350-351 *)
Definition is_witness_u (other : wside) (x : nat) (d len : N) : option bool :=
  b ← is_set (ws_pushed other) x;
  if (b : bool) then e ← ws_dist other !! x; s ← red (d + e)%N; Some (bool_decide (s <= len)%N) else Some false.
(** c:326-357, for the arc [a] *)
Definition relax_witness_u (other : wside) (bypass : nat) (len key : N) (a : garc) (st : wside * bool) : option (wside * bool) :=
  let '(s, found) := st in
  let x := ga_node a in
  if decide (x = bypass) then Some (s, found) else
  d ← red (key + ga_weight a)%N;
  b ← is_set (ws_pushed s) x;
  if (b : bool) then
    old ← ws_dist s !! x;
    if decide (d < old)%N then
      '(_, q) ← decrease_key (ws_queue s) (x, d);
      ds ← wr (ws_dist s) x d;
      wit ← is_witness_u other x d len;
      Some (mkWside ds q (ws_pushed s), found || wit)
    else Some (s, found)
  else
    f ← set_flag (ws_pushed s) x;
    ds ← wr (ws_dist s) x d;
    q ← push (ws_queue s) (x, d);
    wit ← is_witness_u other x d len;
    Some (mkWside ds q f, found || wit).
(** c:297-362; [adj] is out_ or in_. *)
Definition witness_settle_u (adj : list (list garc)) (other : wside) (bypass : nat) (len : N) (s : wside) : option (wside * bool) :=
  '((x, key), q) ← pop (ws_queue s);
  d ← ws_dist s !! x; _ ← chk (bool_decide (d = key));
  p ← is_set (ws_pushed s) x; _ ← chk p;
  let s := mkWside (ws_dist s) q (ws_pushed s) in
  w ← is_witness_u other x key len;
  if (w : bool) then Some (s, true) else
  arcs ← adj !! x;
  for_each arcs (relax_witness_u other bypass len key) (s, false).
(** c:390-437; [k] is max_pop_count - pop_count. *)
Fixpoint witness_loop_u (g : chgraph) (bypass : nat) (len : N) (k : nat) (f b : wside) : option (wside * wside * bool) :=
  if q_empty (ws_queue f) || q_empty (ws_queue b) then Some (f, b, false) else
  pf ← peek (ws_queue f); pb ← peek (ws_queue b);
  s ← red (snd pf + snd pb)%N;
  if decide (len < s)%N then Some (f, b, false) else
  '(f, b, found) ←
    (if decide (snd pf <= snd pb)%N
     then '(f, found) ← witness_settle_u (g_out g) b bypass len f; Some (f, b, found)
     else '(b, found) ← witness_settle_u (g_in g) f bypass len b; Some (f, b, found));
  if (found : bool) then Some (f, b, true) else
  match k with
  | O => Some (f, b, false)
  | S k => witness_loop_u g bypass len k f b
  end.
(** c:375-438 *)
Definition shorter_path_u (g : chgraph) (max_pop_count : nat) (t : wtest) (target : nat) (len : N) : option (bool * wtest) :=
  b ← start_search (wt_bwd t) target;
  p ← is_set (ws_pushed (wt_fwd t)) target;
  hit ← (if (p : bool) then d ← ws_dist (wt_fwd t) !! target; Some (bool_decide (d <= len)%N) else Some false);
  if (hit : bool) then Some (true, mkWtest (wt_fwd t) b (wt_bypass t)) else
  '(f, b, r) ← witness_loop_u g (wt_bypass t) len max_pop_count (wt_fwd t) b;
  Some (r, mkWtest f b (wt_bypass t)).
(** c:555-561: a sum of hop counts *)
Definition sum_hops (arcs : list garc) (s : N) : option N := for_each arcs (fun a s => red (s + ga_hop a)%N) s.
(** c:527-564. A sum of hop counts that is 0 is a division by zero. *)
Definition estimate_u (max_pop_count : nat) (g : chgraph) (t : wtest) (node : nat) : option (N * wtest) :=
  level ← g_level g !! node;
  ins ← g_in g !! node; outs ← g_out g !! node;
  '(arcs, hops, t) ← for_each ins (fun ia '(arcs, hops, t) =>
      t ← pin_source t (ga_node ia) node;
      for_each outs (fun oa '(arcs, hops, t) =>
        if decide (ga_node ia <> ga_node oa) then
          len ← red (ga_weight ia + ga_weight oa)%N;
          '(r, t) ← shorter_path_u g max_pop_count t (ga_node oa) len;
          if (r : bool) then Some (arcs, hops, t)
          else
            arcs ← red (arcs + 1)%N;
            hops ← red (hops + ga_hop ia)%N; hops ← red (hops + ga_hop oa)%N;
            Some (arcs, hops, t)
        else Some (arcs, hops, t)) (arcs, hops, t)) (0%N, 0%N, t);
  removed_arcs ← red (1 + N.of_nat (length ins))%N;
  removed_arcs ← red (removed_arcs + N.of_nat (length outs))%N;
  removed_hops ← sum_hops ins 1%N;
  removed_hops ← sum_hops outs removed_hops;
  _ ← chk (bool_decide (removed_arcs <> 0%N)); _ ← chk (bool_decide (removed_hops <> 0%N));
  k1 ← red (1000 * level)%N; k1 ← red (1 + k1)%N;
  k2 ← red (1000 * arcs)%N; k2 ← red (k1 + k2 / removed_arcs)%N;
  k3 ← red (1000 * hops)%N; k3 ← red (k2 + k3 / removed_hops)%N;
  Some (k3, t).
(** c:566-593; see [contract_node] *)
Definition contract_u (max_pop_count : nat) (g : chgraph) (t : wtest) (node : nat) : option (chgraph * wtest) :=
  ins ← g_in g !! node; outs ← g_out g !! node;
  '(g, t) ← for_each ins (fun ia '(g, t) =>
      t ← pin_source t (ga_node ia) node;
      for_each outs (fun oa '(g, t) =>
        if decide (ga_node ia <> ga_node oa) then
          len ← red (ga_weight ia + ga_weight oa)%N;
          '(r, t) ← shorter_path_u g max_pop_count t (ga_node oa) len;
          if (r : bool) then Some (g, t)
          else
            hop ← red (ga_hop ia + ga_hop oa)%N;
            g ← add_arc_or_reduce_arc_weight (ga_node ia) (Some node) (ga_node oa) len hop g;
            Some (g, t)
        else Some (g, t)) (g, t)) (g, t);
  g ← remove_all_incident_arcs node g;
  Some (g, t).
(** c:754-830 *)
Definition given_rank_u (max_pop_count : nat) (g : chgraph) (rank : list nat) : option (list nat * rawside * rawside) :=
  order ← invert_permutation rank;
  '(_, _, f, b) ← for_range 0 (length (g_out g)) (fun i '(g, t, f, b) =>
      x ← order !! i;
      outs ← g_out g !! x; ins ← g_in g !! x;
      let f := dump_arcs x outs f in
      let b := dump_arcs x ins b in
      '(g, t) ← contract_u max_pop_count g t x;
      Some (g, t, f, b)) (g, new_wtest (length (g_out g)), empty_raw, empty_raw);
  Some (order, f, b).
(** c:711-721 *)
Definition update_neighbor_u (max_pop_count : nat) (level : N) (x : nat) (st : chgraph * wtest * queue * list bool)
    : option (chgraph * wtest * queue * list bool) :=
  let '(g, t, q, is) := st in
  is ← wr is x false;
  g ← raise_level g x level;
  '(new_key, t) ← estimate_u max_pop_count g t x;
  c ← contains_id q x; _ ← chk c;
  old_key ← get_key q x;
  q ← (if decide (old_key < new_key)%N then '(_, q) ← increase_key q (x, new_key); Some q
       else if decide (new_key < old_key)%N then '(_, q) ← decrease_key q (x, new_key); Some q
       else Some q);
  Some (g, t, q, is).
(** c:657-725; [i] is contracted_node_count. *)
Definition contract_next_u (max_pop_count : nat) (i : nat) (s : bstate) : option bstate :=
  '((x, _), q) ← pop (b_queue s);
  rank ← wr (b_rank s) x i;
  order ← wr (b_order s) i x;
  let g := b_graph s in
  ins ← g_in g !! x; outs ← g_out g !! x;
  '(ns, is) ← mark_neighbors x ins ([], b_is s);
  '(ns, is) ← mark_neighbors x outs (ns, is);
  let f := dump_arcs x outs (b_fwd s) in
  let b := dump_arcs x ins (b_bwd s) in
  level ← g_level g !! x; level ← red (level + 1)%N;
  '(g, t) ← contract_u max_pop_count g (b_test s) x;
  '(g, t, q, is) ← for_each ns (update_neighbor_u max_pop_count level) (g, t, q, is);
  Some (mkBstate g t q rank order is f b).
(** c:656-734 *)
Fixpoint contract_all_u (max_pop_count : nat) (fuel i : nat) (s : bstate) : option bstate :=
  match fuel with
  | O => None
  | S fuel =>
      if q_empty (b_queue s) then Some s else
      s ← contract_next_u max_pop_count i s;
      contract_all_u max_pop_count fuel (S i) s
  end.
(** c:608-751 *)
Definition build_order_u (max_pop_count : nat) (g : chgraph) : option (list nat * list nat * rawside * rawside) :=
  let n := length (g_out g) in
  '(t, q) ← for_range 0 n (fun i '(t, q) =>
      '(key, t) ← estimate_u max_pop_count g t i;
      q ← push q (i, key); Some (t, q)) (new_wtest n, new_queue n);
  s ← contract_all_u max_pop_count (S n) 0
        (mkBstate g t q (replicate n 0) (replicate n 0) (replicate n false) empty_raw empty_raw);
  Some (b_rank s, b_order s, b_fwd s, b_bwd s).
(** c:1093-1135 *)
Definition ch_build_u (asserts : bool) (max_pop_count n : nat) (tail head : list nat) (weight : list N) : option ch :=
  a ← clean_arcs asserts n tail head weight;
  g ← new_graph n (a_tail a) (a_head a) (a_weight a);
  '(rank, order, f, b) ← build_order_u max_pop_count g;
  '(f, ff) ← sort_side asserts n f;
  '(b, bf) ← sort_side asserts n b;
  '(rank, order) ← optimize_order_for_cache rank ff (r_head f) bf (r_head b);
  finish_ch asserts n a rank order f b.
(** c:1137-1179 *)
Definition ch_build_given_rank_u (asserts : bool) (max_pop_count : nat) (rank tail head : list nat) (weight : list N) : option ch :=
  let n := length rank in
  a ← clean_arcs asserts n tail head weight;
  g ← new_graph n (a_tail a) (a_head a) (a_weight a);
  '(order, f, b) ← given_rank_u max_pop_count g rank;
  finish_ch asserts n a rank order f b.
(** c:1181-1187 *)
Definition ch_build_given_order_u (asserts : bool) (max_pop_count : nat) (order tail head : list nat) (weight : list N) : option ch :=
  rank ← invert_permutation order;
  ch_build_given_rank_u asserts max_pop_count rank tail head weight.
End construction.
