(** Model of the graph being contracted and of the contraction step of
    src/contraction_hierarchy.cpp:83-593. [None] is undefined behaviour or a violated
    assertion. Weights, hop counts, levels and keys are unbounded numbers: sums that do not fit into
    32 bits wrap in C++ and do not wrap here. invalid_id is [None] in [ga_mid]. *)
From Verif Require Import Base IdQueueModel IdSetModel.

(** contraction_hierarchy.cpp:180-185 *)
Record garc := mkGarc { ga_node : nat; ga_weight : N; ga_hop : N; ga_mid : option nat }.
(** contraction_hierarchy.cpp:226-227 *)
Record chgraph := mkChgraph { g_out : list (list garc); g_in : list (list garc); g_level : list N }.

(** contraction_hierarchy.cpp:92-102; appending to element [i] is [vector::push_back] *)
Definition push_arc (l : list (list garc)) (i : nat) (a : garc) : option (list (list garc)) :=
  v ← l !! i; wr l i (v ++ [a]).
Definition new_graph (n : nat) (tail head : list nat) (weight : list N) : option chgraph :=
  '(o, i) ← for_range 0 (length head) (fun a '(o, i) =>
      x ← tail !! a; y ← head !! a; w ← weight !! a;
      if decide (x <> y) then
        o ← push_arc o x (mkGarc y w 1 None);
        i ← push_arc i y (mkGarc x w 1 None);
        Some (o, i)
      else Some (o, i)) (replicate n [], replicate n []);
  Some (mkChgraph o i (replicate n 0%N)).

(** The loops looking for the arc to a node (117-118, 125-126, 161-163): the position of the first one. *)
Fixpoint find_node (l : list garc) (y : nat) : option nat :=
  match l with
  | [] => None
  | a :: l => if decide (ga_node a = y) then Some 0 else S <$> find_node l y
  end.
(** contraction_hierarchy.cpp:127-132 *)
Definition set_arc (l : list garc) (i : nat) (w h : N) (mid : option nat) : option (list garc) :=
  a ← l !! i; wr l i (mkGarc (ga_node a) w h mid).
(** contraction_hierarchy.cpp:111-140. The inner option is the returned bool, with the new contents of the two
    vectors if it is true. Line 136 is [None]. *)
Definition reduce_arc_if_exists (w h : N) (mid : option nat) (x : nat) (x_out : list garc) (y : nat) (y_in : list garc)
    : option (option (list garc * list garc)) :=
  match find_node x_out y with
  | None => Some None
  | Some oa =>
      a ← x_out !! oa;
      if decide (ga_weight a <= w)%N then Some (Some (x_out, y_in)) else
      ia ← find_node y_in x;
      x_out ← set_arc x_out oa w h mid;
      y_in ← set_arc y_in ia w h mid;
      Some (Some (x_out, y_in))
  end.
(** contraction_hierarchy.cpp:105-153. In the second case the vectors change their roles (146). *)
Definition prod_swap {A B} (p : A * B) : B * A := (snd p, fst p).
Definition add_arc_or_reduce_arc_weight (x : nat) (mid : option nat) (y : nat) (w h : N) (g : chgraph) : option chgraph :=
  _ ← chk (bool_decide (x <> y));
  xo ← g_out g !! x; yi ← g_in g !! y;
  r ← (if decide (length xo <= length yi)
       then reduce_arc_if_exists w h mid x xo y yi
       else o ← reduce_arc_if_exists w h mid y yi x xo; Some (option_map prod_swap o));
  match r with
  | Some (xo, yi) => o ← wr (g_out g) x xo; i ← wr (g_in g) y yi; Some (mkChgraph o i (g_level g))
  | None =>
      o ← push_arc (g_out g) x (mkGarc y w h mid);
      i ← push_arc (g_in g) y (mkGarc x w h mid);
      Some (mkChgraph o i (g_level g))
  end.

(** contraction_hierarchy.cpp:158-169 *)
Definition remove_back_arcs (x : nat) (x_out : list garc) (l : list (list garc)) : option (list (list garc)) :=
  for_each x_out (fun a l =>
    let y := ga_node a in
    v ← l !! y; i ← find_node v x; wr l y (delete i v)) l.
(** contraction_hierarchy.cpp:155-178 *)
Definition remove_all_incident_arcs (x : nat) (g : chgraph) : option chgraph :=
  xo ← g_out g !! x;
  i ← remove_back_arcs x xo (g_in g);
  xi ← i !! x;
  o ← remove_back_arcs x xi (g_out g);
  i ← wr i x []; o ← wr o x [];
  Some (mkChgraph o i (g_level g)).
(** contraction_hierarchy.cpp:219-224 *)
Definition raise_level (g : chgraph) (x : nat) (level : N) : option chgraph :=
  l ← g_level g !! x;
  if decide (l <= level)%N then lv ← wr (g_level g) x level; Some (mkChgraph (g_out g) (g_in g) lv)
  else Some g.

(** ** The witness search *)
(** One direction of ShorterPathTest (contraction_hierarchy.cpp:519-524). *)
Record wside := mkWside { ws_dist : list N; ws_queue : queue; ws_pushed : flags }.
(** contraction_hierarchy.cpp:364 and 519-524; the graph is passed separately, max_pop_count too. *)
Record wtest := mkWtest { wt_fwd : wside; wt_bwd : wside; wt_bypass : nat }.
(** contraction_hierarchy.cpp:233-238. bypass_node is uninitialised until the first
    pin_source. *)
Definition new_wside (n : nat) : wside := mkWside (replicate n 0%N) (new_queue n) (new_flags n).
Definition new_wtest (n : nat) : wtest := mkWtest (new_wside n) (new_wside n) 0.

(** contraction_hierarchy.cpp:367-371 and 376-380: start a search at [s]. *)
Definition start_search (w : wside) (s : nat) : option wside :=
  let f := reset_all (ws_pushed w) in
  q ← clear (ws_queue w);
  q ← push q (s, 0%N);
  d ← wr (ws_dist w) s 0%N;
  f ← set_flag f s;
  Some (mkWside d q f).
(** contraction_hierarchy.cpp:366-373 *)
Definition pin_source (t : wtest) (s bypass : nat) : option wtest :=
  f ← start_search (wt_fwd t) s; Some (mkWtest f (wt_bwd t) bypass).

(** The tests of 316-317, 338-339, 350-351: the other search has reached [x] and both halves are not longer
    than [len]. *)
Definition is_witness (other : wside) (x : nat) (d len : N) : option bool :=
  b ← is_set (ws_pushed other) x;
  if (b : bool) then e ← ws_dist other !! x; Some (bool_decide (d + e <= len)%N) else Some false.
(** contraction_hierarchy.cpp:326-357, for the arc [a] *)
Definition relax_witness (other : wside) (bypass : nat) (len key : N) (a : garc) (st : wside * bool) : option (wside * bool) :=
  let '(s, found) := st in
  let x := ga_node a in
  if decide (x = bypass) then Some (s, found) else
  let d := (key + ga_weight a)%N in
  b ← is_set (ws_pushed s) x;
  if (b : bool) then
    old ← ws_dist s !! x;
    if decide (d < old)%N then
      '(_, q) ← decrease_key (ws_queue s) (x, d);
      ds ← wr (ws_dist s) x d;
      wit ← is_witness other x d len;
      Some (mkWside ds q (ws_pushed s), found || wit)
    else Some (s, found)
  else
    f ← set_flag (ws_pushed s) x;
    ds ← wr (ws_dist s) x d;
    q ← push (ws_queue s) (x, d);
    wit ← is_witness other x d len;
    Some (mkWside ds q f, found || wit).
(** contraction_hierarchy.cpp:297-362; [adj] is out_ or in_. *)
Definition witness_settle (adj : list (list garc)) (other : wside) (bypass : nat) (len : N) (s : wside) : option (wside * bool) :=
  '((x, key), q) ← pop (ws_queue s);
  d ← ws_dist s !! x; _ ← chk (bool_decide (d = key));
  p ← is_set (ws_pushed s) x; _ ← chk p;
  let s := mkWside (ws_dist s) q (ws_pushed s) in
  w ← is_witness other x key len;
  if (w : bool) then Some (s, true) else
  arcs ← adj !! x;
  for_each arcs (relax_witness other bypass len key) (s, false).
(** contraction_hierarchy.cpp:390-437; [k] is max_pop_count - pop_count. *)
Fixpoint witness_loop (g : chgraph) (bypass : nat) (len : N) (k : nat) (f b : wside) : option (wside * wside * bool) :=
  if q_empty (ws_queue f) || q_empty (ws_queue b) then Some (f, b, false) else
  pf ← peek (ws_queue f); pb ← peek (ws_queue b);
  if decide (len < snd pf + snd pb)%N then Some (f, b, false) else
  '(f, b, found) ←
    (if decide (snd pf <= snd pb)%N
     then '(f, found) ← witness_settle (g_out g) b bypass len f; Some (f, b, found)
     else '(b, found) ← witness_settle (g_in g) f bypass len b; Some (f, b, found));
  if (found : bool) then Some (f, b, true) else
  match k with
  | O => Some (f, b, false)
  | S k => witness_loop g bypass len k f b
  end.
(** contraction_hierarchy.cpp:375-438 *)
Definition does_shorter_or_equal_path_to_target_exist (g : chgraph) (max_pop_count : nat) (t : wtest) (target : nat) (len : N)
    : option (bool * wtest) :=
  b ← start_search (wt_bwd t) target;
  p ← is_set (ws_pushed (wt_fwd t)) target;
  hit ← (if (p : bool) then d ← ws_dist (wt_fwd t) !! target; Some (bool_decide (d <= len)%N) else Some false);
  if (hit : bool) then Some (true, mkWtest (wt_fwd t) b (wt_bypass t)) else
  '(f, b, r) ← witness_loop g (wt_bypass t) len max_pop_count (wt_fwd t) b;
  Some (r, mkWtest f b (wt_bypass t)).

(** contraction_hierarchy.cpp:527-564. The in- and out-arcs are those of the graph at the call. *)
Definition estimate_node_importance (max_pop_count : nat) (g : chgraph) (t : wtest) (node : nat) : option (N * wtest) :=
  level ← g_level g !! node;
  ins ← g_in g !! node; outs ← g_out g !! node;
  '(arcs, hops, t) ← for_each ins (fun ia '(arcs, hops, t) =>
      t ← pin_source t (ga_node ia) node;
      for_each outs (fun oa '(arcs, hops, t) =>
        if decide (ga_node ia <> ga_node oa) then
          '(r, t) ← does_shorter_or_equal_path_to_target_exist g max_pop_count t (ga_node oa) (ga_weight ia + ga_weight oa);
          if (r : bool) then Some (arcs, hops, t)
          else Some (arcs + 1, hops + ga_hop ia + ga_hop oa, t)%N
        else Some (arcs, hops, t)) (arcs, hops, t)) (0%N, 0%N, t);
  let removed_arcs := (1 + N.of_nat (length ins) + N.of_nat (length outs))%N in
  let removed_hops := foldl (fun s a => s + ga_hop a)%N (foldl (fun s a => s + ga_hop a)%N 1%N ins) outs in
  Some (1 + 1000 * level + (1000 * arcs) / removed_arcs + (1000 * hops) / removed_hops, t)%N.

(** contraction_hierarchy.cpp:566-593. The loops read the arcs of the contracted node
    from the graph they modify; add_arc_or_reduce_arc_weight only touches arcs between other nodes (a
    graph without loops), so the arcs are read once here. *)
Definition contract_node (max_pop_count : nat) (g : chgraph) (t : wtest) (node : nat) : option (chgraph * wtest) :=
  ins ← g_in g !! node; outs ← g_out g !! node;
  '(g, t) ← for_each ins (fun ia '(g, t) =>
      t ← pin_source t (ga_node ia) node;
      for_each outs (fun oa '(g, t) =>
        if decide (ga_node ia <> ga_node oa) then
          '(r, t) ← does_shorter_or_equal_path_to_target_exist g max_pop_count t (ga_node oa) (ga_weight ia + ga_weight oa);
          if (r : bool) then Some (g, t)
          else
            g ← add_arc_or_reduce_arc_weight (ga_node ia) (Some node) (ga_node oa)
                  (ga_weight ia + ga_weight oa)%N (ga_hop ia + ga_hop oa)%N g;
            Some (g, t)
        else Some (g, t)) (g, t)) (g, t);
  g ← remove_all_incident_arcs node g;
  Some (g, t).
