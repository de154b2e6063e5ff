(** Model of the construction of a contraction hierarchy,
    src/contraction_hierarchy.cpp:599-1187. [None] is undefined behaviour or a violated
    assertion. The log messages are left out, and so is the exception thrown at 2^32-1 shortcuts. *)
From Verif Require Import Base PermutationModel GraphUtilModel IdQueueModel IdSetModel ChCleanModel ChGraphModel.

(** One direction of the hierarchy under construction: ContractionHierarchy::Side::head/weight and
    ContractionHierarchyExtraInfo::Side (599-606). *)
Record rawside := mkRaw { r_tail : list nat; r_head : list nat; r_weight : list N; r_mid : list (option nat) }.
Definition empty_raw : rawside := mkRaw [] [] [] [].
(** contraction_hierarchy.h:53-61: the finished direction. is_shortcut_an_original_arc is
    a BitVector in C++. *)
Record chside := mkChside { cs_first_out : list nat; cs_head : list nat; cs_weight : list N;
  cs_orig : list bool; cs_first : list nat; cs_second : list nat }.
(** contraction_hierarchy.h:63-64 *)
Record ch := mkCh { ch_rank : list nat; ch_order : list nat; ch_fwd : chside; ch_bwd : chside }.

(** contraction_hierarchy.cpp:683-692, 694-703 (780-789, 791-800): append the arcs of
    [x]. *)
Definition dump_arcs (x : nat) (arcs : list garc) (r : rawside) : rawside :=
  mkRaw (r_tail r ++ replicate (length arcs) x) (r_head r ++ (ga_node <$> arcs))
        (r_weight r ++ (ga_weight <$> arcs)) (r_mid r ++ (ga_mid <$> arcs)).

(** contraction_hierarchy.cpp:754-830: the order and the arcs in both directions *)
Definition build_ch_given_rank (max_pop_count : nat) (g : chgraph) (rank : list nat) : option (list nat * rawside * rawside) :=
  order ← invert_permutation rank;
  '(_, _, f, b) ← for_range 0 (length (g_out g)) (fun i '(g, t, f, b) =>
      x ← order !! i;
      outs ← g_out g !! x; ins ← g_in g !! x;
      let f := dump_arcs x outs f in
      let b := dump_arcs x ins b in
      '(g, t) ← contract_node max_pop_count g t x;
      Some (g, t, f, b)) (g, new_wtest (length (g_out g)), empty_raw, empty_raw);
  Some (order, f, b).

(** contraction_hierarchy.cpp:663-679: collect the neighbours *)
Definition mark_neighbors (x : nat) (arcs : list garc) (st : list nat * list bool) : option (list nat * list bool) :=
  for_each arcs (fun a '(ns, is) =>
    let y := ga_node a in
    _ ← chk (bool_decide (x <> y));
    b ← is !! y;
    if (b : bool) then Some (ns, is) else is ← wr is y true; Some (ns ++ [y], is)) st.
(** contraction_hierarchy.cpp:711-721 *)
Definition update_neighbor (max_pop_count : nat) (level : N) (x : nat) (st : chgraph * wtest * queue * list bool)
    : option (chgraph * wtest * queue * list bool) :=
  let '(g, t, q, is) := st in
  is ← wr is x false;
  g ← raise_level g x level;
  '(new_key, t) ← estimate_node_importance max_pop_count g t x;
  c ← contains_id q x; _ ← chk c;
  old_key ← get_key q x;
  q ← (if decide (old_key < new_key)%N then '(_, q) ← increase_key q (x, new_key); Some q
       else if decide (new_key < old_key)%N then '(_, q) ← decrease_key q (x, new_key); Some q
       else Some q);
  Some (g, t, q, is).
(** The state of the contraction loop (656-734): rank, order, neighbour flags and what [build_ch_given_rank] has. *)
Record bstate := mkBstate { b_graph : chgraph; b_test : wtest; b_queue : queue; b_rank : list nat; b_order : list nat;
  b_is : list bool; b_fwd : rawside; b_bwd : rawside }.
(** contraction_hierarchy.cpp:657-725; [i] is contracted_node_count. *)
Definition contract_next (max_pop_count : nat) (i : nat) (s : bstate) : option bstate :=
  '((x, _), q) ← pop (b_queue s);
  rank ← wr (b_rank s) x i;
  order ← wr (b_order s) i x;
  let g := b_graph s in
  ins ← g_in g !! x; outs ← g_out g !! x;
  '(ns, is) ← mark_neighbors x ins ([], b_is s);
  '(ns, is) ← mark_neighbors x outs (ns, is);
  let f := dump_arcs x outs (b_fwd s) in
  let b := dump_arcs x ins (b_bwd s) in
  level ← g_level g !! x;
  '(g, t) ← contract_node max_pop_count g (b_test s) x;
  '(g, t, q, is) ← for_each ns (update_neighbor max_pop_count (level + 1)%N) (g, t, q, is);
  Some (mkBstate g t q rank order is f b).
(** contraction_hierarchy.cpp:656-734. Every iteration removes a node from the queue; the fuel
    is larger than the number of nodes. *)
Fixpoint contract_all (max_pop_count : nat) (fuel i : nat) (s : bstate) : option bstate :=
  match fuel with
  | O => None
  | S fuel =>
      if q_empty (b_queue s) then Some s else
      s ← contract_next max_pop_count i s;
      contract_all max_pop_count fuel (S i) s
  end.
(** contraction_hierarchy.cpp:608-751: rank, order and the arcs in both directions *)
Definition build_ch_and_order (max_pop_count : nat) (g : chgraph) : option (list nat * list nat * rawside * rawside) :=
  let n := length (g_out g) in
  '(t, q) ← for_range 0 n (fun i '(t, q) =>
      '(key, t) ← estimate_node_importance max_pop_count g t i;
      q ← push q (i, key); Some (t, q)) (new_wtest n, new_queue n);
  s ← contract_all max_pop_count (S n) 0
        (mkBstate g t q (replicate n 0) (replicate n 0) (replicate n false) empty_raw empty_raw);
  Some (b_rank s, b_order s, b_fwd s, b_bwd s).

(** permutation.h:115-123 on ids whose invalid_id is [None] (the version on the stored
    numbers is in PermutationModel.v) *)
Definition apply_to_possibly_invalid (p : list nat) (v : list (option nat)) : option (list (option nat)) :=
  for_range 0 (length v) (fun i v => o ← v !! i;
    match o with None => Some v | Some x => y ← p !! x; wr v i (Some y) end) v.
(** contraction_hierarchy.cpp:844-846 (847-849) and the assertions 852-853 (854-855) *)
Definition renumber_side (rank : list nat) (r : rawside) : option rawside :=
  hd ← inplace_apply_permutation_to_elements_of rank (r_head r);
  tl ← inplace_apply_permutation_to_elements_of rank (r_tail r);
  mid ← apply_to_possibly_invalid rank (r_mid r);
  _ ← for_range 0 (length tl) (fun i _ => x ← tl !! i; y ← hd !! i; chk (bool_decide (x < y))) tt;
  Some (mkRaw tl hd (r_weight r) mid).
(** contraction_hierarchy.cpp:833-862 *)
Definition make_internal_nodes_and_rank_coincide (rank : list nat) (f b : rawside) : option (rawside * rawside) :=
  f ← renumber_side rank f; b ← renumber_side rank b; Some (f, b).

(** contraction_hierarchy.cpp:878-884 (888-893): the sorted arcs and first_out *)
Definition sort_side (asserts : bool) (n : nat) (r : rawside) : option (rawside * list nat) :=
  '(p, tl) ← compute_inverse_sort_permutation_first_by_tail_then_by_head_and_apply_sort_to_tail asserts n (r_tail r) (r_head r);
  hd ← apply_inverse_permutation p (r_head r);
  ws ← apply_inverse_permutation p (r_weight r);
  mid ← apply_inverse_permutation p (r_mid r);
  fo ← invert_vector tl n;
  Some (mkRaw tl hd ws mid, fo).

(** contraction_hierarchy.cpp:943-949 *)
Definition on_node (rank : list nat) (bottom : list bool) (y : nat) (st : queue * list bool) : option (queue * list bool) :=
  let '(q, is) := st in
  bt ← bottom !! y; _ ← chk (negb bt);
  b ← is !! y;
  if (b : bool) then Some (q, is)
  else is ← wr is y true; r ← rank !! y; q ← push q (y, N.of_nat r); Some (q, is).
(** contraction_hierarchy.cpp:951-952 (954-955) *)
Definition visit_side (rank : list nat) (bottom : list bool) (fo head : list nat) (x : nat) (st : queue * list bool)
    : option (queue * list bool) :=
  lo ← fo !! x; hi ← fo !! S x;
  for_range lo hi (fun xy st => y ← head !! xy; on_node rank bottom y st) st.
(** contraction_hierarchy.cpp:937-956: [order_end] is new_order_end. A node is pushed at most
    once, so the number of nodes is enough fuel. *)
Fixpoint visit_chunk (rank : list nat) (bottom : list bool) (ffo fhead bfo bhead : list nat) (fuel : nat)
    (st : queue * list bool * list nat * nat) : option (queue * list bool * list nat * nat) :=
  let '(q, is, new_order, order_end) := st in
  if q_empty q then Some (q, is, new_order, order_end) else
  match fuel with
  | O => None
  | S fuel =>
      '((x, _), q) ← pop q;
      _ ← chk (bool_decide (0 < order_end));
      new_order ← wr new_order (order_end - 1) x;
      '(q, is) ← visit_side rank bottom ffo fhead x (q, is);
      '(q, is) ← visit_side rank bottom bfo bhead x (q, is);
      visit_chunk rank bottom ffo fhead bfo bhead fuel (q, is, new_order, order_end - 1)
  end.
(** std::reverse(v.begin()+lo, v.begin()+hi) *)
Definition reverse_range (v : list nat) (lo hi : nat) : list nat :=
  take lo v ++ rev (drop lo (take hi v)) ++ drop hi v.
(** contraction_hierarchy.cpp:902-971: the new order and its inverse, the new rank *)
Definition optimize_order_for_cache (rank : list nat) (ffo fhead bfo bhead : list nat) : option (list nat * list nat) :=
  let n := length rank in
  bottom ← for_each fhead (fun y l => wr l y false) (replicate n true);
  bottom ← for_each bhead (fun y l => wr l y false) bottom;
  '(_, _, new_order, order_end) ← for_range 0 n (fun r '(q, is, new_order, order_end) =>
      bt ← bottom !! r;
      if (bt : bool) then
        let search_space_end := order_end in
        k ← rank !! r;
        q ← push q (r, N.of_nat k);
        i ← is !! r; _ ← chk (negb i);
        is ← wr is r true;
        '(q, is, new_order, order_end) ← visit_chunk rank bottom ffo fhead bfo bhead n (q, is, new_order, order_end);
        Some (q, is, reverse_range new_order order_end search_space_end, order_end)
      else Some (q, is, new_order, order_end)) (new_queue n, replicate n false, replicate n 0, n);
  _ ← chk (bool_decide (order_end = 0));
  p ← is_permutation new_order; _ ← chk p;
  new_rank ← invert_permutation new_order;
  Some (new_rank, new_order).

(** contraction_hierarchy.cpp:1000-1017 (1021-1034) for the arc [xy] leaving [x]: whether the arc is original, and the values of
    shortcut_first_arc and shortcut_second_arc. The arc runs from [s] to [t] in the graph:
    [s = x], [t = y] in the forward direction, the other way round in the backward
    direction. *)
Definition unpack_entry (fo head ids order : list nat) (ff fh bf bh : list nat) (mid : option nat) (s t : nat) : option (bool * nat * nat) :=
  match mid with
  | None =>
      os ← order !! s; ot ← order !! t;
      a ← find_arc_given_sorted_head fo head os ot;
      i ← ids !! a; h ← head !! a;
      Some (true, i, h)
  | Some z =>
      first ← find_arc_given_sorted_head bf bh z s;
      second ← find_arc_given_sorted_head ff fh z t;
      Some (false, first, second)
  end.
(** contraction_hierarchy.cpp:999-1018 (1020-1035) *)
Definition unpack_side (forward : bool) (n : nat) (fo head ids order : list nat) (ff fh bf bh : list nat)
    (sfo shead : list nat) (mid : list (option nat)) : option (list bool * list nat * list nat) :=
  let m := length shead in
  for_range 0 n (fun x st =>
    lo ← sfo !! x; hi ← sfo !! S x;
    for_range lo hi (fun xy '(orig, first, second) =>
      y ← shead !! xy; z ← mid !! xy;
      '(o, a, b) ← (if forward then unpack_entry fo head ids order ff fh bf bh z x y
                    else unpack_entry fo head ids order ff fh bf bh z y x);
      orig ← wr orig xy o; first ← wr first xy a; second ← wr second xy b;
      Some (orig, first, second)) st) (replicate m false, replicate m 0, replicate m 0).
(** contraction_hierarchy.cpp:973-1066; [a] are the cleaned input arcs. The assertion of
    line 982 and the consistency checks at the end (1037-1058) are left out. *)
Definition build_unpacking_information (n : nat) (a : arcs4) (rank order : list nat) (f : rawside) (ff : list nat) (b : rawside) (bf : list nat)
    : option ch :=
  fo ← invert_vector (a_tail a) n;
  '(fo1, fa, fs) ← unpack_side true n fo (a_head a) (a_id a) order ff (r_head f) bf (r_head b) ff (r_head f) (r_mid f);
  '(bo1, ba, bs) ← unpack_side false n fo (a_head a) (a_id a) order ff (r_head f) bf (r_head b) bf (r_head b) (r_mid b);
  Some (mkCh rank order (mkChside ff (r_head f) (r_weight f) fo1 fa fs) (mkChside bf (r_head b) (r_weight b) bo1 ba bs)).

(** contraction_hierarchy.cpp:1169-1174, 1125-1130 *)
Definition finish_ch (asserts : bool) (n : nat) (a : arcs4) (rank order : list nat) (f b : rawside) : option ch :=
  '(f, b) ← make_internal_nodes_and_rank_coincide rank f b;
  '(f, ff) ← sort_side asserts n f;
  '(b, bf) ← sort_side asserts n b;
  build_unpacking_information n a rank order f ff b bf.

(** contraction_hierarchy.cpp:1093-1135; the assertions 1097-1100 are preconditions. *)
Definition ch_build (asserts : bool) (max_pop_count n : nat) (tail head : list nat) (weight : list N) : option ch :=
  a ← clean_arcs asserts n tail head weight;
  g ← new_graph n (a_tail a) (a_head a) (a_weight a);
  '(rank, order, f, b) ← build_ch_and_order max_pop_count g;
  '(f, ff) ← sort_side asserts n f;
  '(b, bf) ← sort_side asserts n b;
  '(rank, order) ← optimize_order_for_cache rank ff (r_head f) bf (r_head b);
  finish_ch asserts n a rank order f b.
(** contraction_hierarchy.cpp:1137-1179 *)
Definition ch_build_given_rank (asserts : bool) (max_pop_count : nat) (rank tail head : list nat) (weight : list N) : option ch :=
  let n := length rank in
  a ← clean_arcs asserts n tail head weight;
  g ← new_graph n (a_tail a) (a_head a) (a_weight a);
  '(order, f, b) ← build_ch_given_rank max_pop_count g rank;
  finish_ch asserts n a rank order f b.
(** contraction_hierarchy.cpp:1181-1187 *)
Definition ch_build_given_order (asserts : bool) (max_pop_count : nat) (order tail head : list nat) (weight : list N) : option ch :=
  rank ← invert_permutation order;
  ch_build_given_rank asserts max_pop_count rank tail head weight.
