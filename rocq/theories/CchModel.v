(** Model of src/customizable_contraction_hierarchy.cpp: triangle enumeration,
    customization, partial customization, queries and path unpacking. The constructor is
    in CchBuildModel.v, the parallel and the perfect customization in files of their own.
    Line numbers without a file name refer to that .cpp file. [None] is undefined
    behaviour, a violated assertion or a non-terminating loop. *)
From Verif Require Import Base IdSetModel GraphUtilModel.

Definition word32 : N := 4294967296.
(** [a + b] on unsigned int *)
Definition add32 (a b : N) : N := ((a + b) mod word32)%N.

(** customizable_contraction_hierarchy.h:37-66. Ids that may be invalid_id are
    [option nat]. A BitVector is a [list bool] and LocalIDMapper::to_local is
    [local_id] below; both are refined by the models of those classes. *)
Record cch := mkCch {
  c_order : list nat; c_rank : list nat; c_parent : list (option nat);
  up_first_out : list nat; up_head : list nat; up_tail : list nat;
  down_first_out : list nat; down_head : list nat; down_to_up : list nat;
  in_to_cch : list (option nat); in_upward : list bool;
  has_input : list bool; fwd_input : list (option nat); bwd_input : list (option nat);
  has_extra : list bool; first_extra_fwd : list nat; first_extra_bwd : list nat;
  extra_fwd : list nat; extra_bwd : list nat }.

(** customizable_contraction_hierarchy.h:22-32 *)
Definition c_node_count (c : cch) : nat := length (c_rank c).
Definition c_arc_count (c : cch) : nat := length (up_head c).

(** id_mapper.h: number of set bits before [x]; [x] must be set (id_mapper.cpp:60-106). *)
Definition local_id (bits : list bool) (x : nat) : option nat :=
  b ← bits !! x; if (b : bool) then Some (length (filter Is_true (take x bits))) else None.

(** ** Triangle enumeration *)

(** The merge loop shared by lines 76-88, 105-117 and 134-146: two adjacency ranges
    [i,ie) and [j,je) sorted by head; [f] is called for each common head and returns
    whether to go on. The fuel is the number of arcs left. *)
Fixpoint merge_arcs {St} (h1 h2 : list nat) (f : nat -> nat -> nat -> St -> option (St * bool))
    (fuel i ie j je : nat) (s : St) : option (St * bool) :=
  if decide (i = ie) then Some (s, true) else
  if decide (j = je) then Some (s, true) else
  match fuel with
  | O => None
  | S fuel =>
      x ← h1 !! i; y ← h2 !! j;
      if decide (x < y) then merge_arcs h1 h2 f fuel (S i) ie j je s
      else if decide (y < x) then merge_arcs h1 h2 f fuel i ie (S j) je s
      else
        '(s, go) ← f x i j s;
        if (go : bool) then merge_arcs h1 h2 f fuel (S i) ie (S j) je s else Some (s, false)
  end.

(** A callback: bottom arc, mid arc, top arc, bottom node, mid node, top node (58-66). *)
Definition triangle_fn (St : Type) : Type := nat -> nat -> nat -> nat -> nat -> nat -> St -> option (St * bool).

(** :68-90 *)
Definition forall_upper_triangles {St} (c : cch) (x y xy : nat) (f : triangle_fn St) (s : St) : option (St * bool) :=
  xe ← up_first_out c !! S x; y0 ← up_first_out c !! y; ye ← up_first_out c !! S y;
  merge_arcs (up_head c) (up_head c) (fun z xz yz s => f xy xz yz x y z s) (xe + ye) (S xy) xe y0 ye s.
(** :97-119 *)
Definition forall_intermediate_triangles {St} (c : cch) (x y xy : nat) (f : triangle_fn St) (s : St) : option (St * bool) :=
  x0 ← up_first_out c !! x; y0 ← down_first_out c !! y; ye ← down_first_out c !! S y;
  merge_arcs (up_head c) (down_head c) (fun z xz yz s => zy ← down_to_up c !! yz; f xz xy zy x z y s) (xy + ye) x0 xy y0 ye s.
(** :126-148 *)
Definition forall_lower_triangles {St} (c : cch) (x y xy : nat) (f : triangle_fn St) (s : St) : option (St * bool) :=
  x0 ← down_first_out c !! x; xe ← down_first_out c !! S x;
  y0 ← down_first_out c !! y; ye ← down_first_out c !! S y;
  merge_arcs (down_head c) (down_head c)
    (fun z xz yz s => zx ← down_to_up c !! xz; zy ← down_to_up c !! yz; f zx zy xy z x y s) (xe + ye) x0 xe y0 ye s.

(** :92-95, 121-124, 150-153 *)
Definition forall_upper_triangles_of_arc {St} (c : cch) (xy : nat) (f : triangle_fn St) (s : St) :=
  x ← up_tail c !! xy; y ← up_head c !! xy; forall_upper_triangles c x y xy f s.
Definition forall_intermediate_triangles_of_arc {St} (c : cch) (xy : nat) (f : triangle_fn St) (s : St) :=
  x ← up_tail c !! xy; y ← up_head c !! xy; forall_intermediate_triangles c x y xy f s.
Definition forall_lower_triangles_of_arc {St} (c : cch) (xy : nat) (f : triangle_fn St) (s : St) :=
  x ← up_tail c !! xy; y ← up_head c !! xy; forall_lower_triangles c x y xy f s.

(** ** Customization *)

(** The two weight vectors of a CustomizableContractionHierarchyMetric; the CCH and the
    input weights, to which the class keeps pointers, are passed as arguments. *)
Record metric := mkMetric { m_fwd : list N; m_bwd : list N }.

(** :735-741, value-initialised *)
Definition new_metric (c : cch) : metric :=
  mkMetric (replicate (c_arc_count c) 0%N) (replicate (c_arc_count c) 0%N).

(** min_to(v[a], x) *)
Definition min_to (v : list N) (a : nat) (x : N) : option (list N) :=
  o ← v !! a; wr v a (N.min o x).

(** :665-674, one direction *)
Definition first_weight (input : list (option nat)) (i : nat) (w : list N) : option N :=
  o ← input !! i; match o with Some e => w !! e | None => Some inf_weight end.
(** :677-681, one direction *)
Definition extra_weights (first extra : list nat) (i : nat) (w : list N) (v : list N) (a : nat) : option (list N) :=
  lo ← first !! i; hi ← first !! S i;
  for_range lo hi (fun j v => e ← extra !! j; x ← w !! e; min_to v a x) v.

(** :659-684 *)
Definition extract_arc (c : cch) (w : list N) (a : nat) (m : metric) : option metric :=
  b ← has_input c !! a;
  if negb b then
    f ← wr (m_fwd m) a inf_weight; g ← wr (m_bwd m) a inf_weight; Some (mkMetric f g)
  else
    i ← local_id (has_input c) a;
    x ← first_weight (fwd_input c) i w; f ← wr (m_fwd m) a x;
    y ← first_weight (bwd_input c) i w; g ← wr (m_bwd m) a y;
    e ← has_extra c !! a;
    if (e : bool) then
      i ← local_id (has_extra c) a;
      f ← extra_weights (first_extra_fwd c) (extra_fwd c) i w f a;
      g ← extra_weights (first_extra_bwd c) (extra_bwd c) i w g a;
      Some (mkMetric f g)
    else Some (mkMetric f g).
(** :686-690 *)
Definition extract_all (c : cch) (w : list N) (m : metric) : option metric :=
  for_range 0 (c_arc_count c) (extract_arc c w) m.

(** :692-710, LowerTriangleRelaxer *)
Definition relax_triangle (bottom mid top : nat) (m : metric) : option metric :=
  b1 ← m_bwd m !! bottom; f1 ← m_fwd m !! mid; f ← min_to (m_fwd m) top (add32 b1 f1);
  f2 ← f !! bottom; b2 ← m_bwd m !! mid; g ← min_to (m_bwd m) top (add32 f2 b2);
  Some (mkMetric f g).

(** :790-796, the loop over the arcs (y,z) from the last one downwards; [lo + cnt] is
    yz_up_reversed. *)
Fixpoint relax_mids (c : cch) (x yx lo : nat) (cache : list nat) (cnt : nat) (m : metric) : option metric :=
  match cnt with
  | O => Some m
  | S k =>
      z ← up_head c !! (lo + k);
      if decide (z <= x) then Some m else
      xz ← cache !! z;
      m ← relax_triangle yx (lo + k) xz m;
      relax_mids c x yx lo cache k m
  end.

(** :780-798, the body of the loop over the nodes *)
Definition customize_node (c : cch) (x : nat) (st : list nat * metric) : option (list nat * metric) :=
  let '(cache, m) := st in
  lo ← up_first_out c !! x; hi ← up_first_out c !! S x;
  cache ← for_range lo hi (fun xz cache => z ← up_head c !! xz; wr cache z xz) cache;
  dlo ← down_first_out c !! x; dhi ← down_first_out c !! S x;
  m ← for_range dlo dhi (fun xy m =>
        yx ← down_to_up c !! xy; y ← down_head c !! xy;
        ylo ← up_first_out c !! y; yhi ← up_first_out c !! S y;
        relax_mids c x yx ylo cache (yhi - ylo) m) m;
  Some (cache, m).

(** :773-805 *)
Definition customize (c : cch) (w : list N) (m : metric) : option metric :=
  m ← extract_all c w m;
  '(_, m) ← for_range 0 (c_node_count c) (customize_node c) (replicate (c_node_count c) 0, m);
  Some m.

(** ** Partial customization *)

(** :967-972. The queue is an IDSetMinQueue of CCH arcs (:947-950). *)
Definition update_arc (c : cch) (q : idset) (xy : nat) : option idset :=
  a ← in_to_cch c !! xy;
  match a with Some a => idset_push q a | None => Some q end.

(** :1005-1010, 1023-1028: the test whether the top arc has to be recomputed *)
Definition must_push (x1 old1 x2 old2 top_f top_b new1 new2 : N) : bool :=
  (N.eqb (add32 x1 old1) top_f || N.eqb (add32 x2 old2) top_b ||
   N.ltb (add32 x1 new1) top_f || N.ltb (add32 x2 new2) top_b)%bool.

(** :979-1034, one iteration of the loop; [asserts] as for IDSetMinQueue. *)
Definition partial_step (asserts : bool) (c : cch) (w : list N) (q : idset) (m : metric) : option (idset * metric) :=
  '(r, q) ← idset_pop asserts q; xy ← r;
  old_f ← m_fwd m !! xy; old_b ← m_bwd m !! xy;
  f ← wr (m_fwd m) xy inf_weight; g ← wr (m_bwd m) xy inf_weight;
  m ← extract_arc c w xy (mkMetric f g);
  '(m, _) ← forall_lower_triangles_of_arc c xy
      (fun bottom mid top _ _ _ m => m ← relax_triangle bottom mid top m; Some (m, true)) m;
  new_f ← m_fwd m !! xy; new_b ← m_bwd m !! xy;
  if decide (old_f <> new_f \/ old_b <> new_b) then
    '(q, _) ← forall_intermediate_triangles_of_arc c xy
      (fun bottom mid top _ _ _ q =>
         xb ← m_bwd m !! bottom; xf ← m_fwd m !! bottom; tf ← m_fwd m !! top; tb ← m_bwd m !! top;
         if must_push xb old_f xf old_b tf tb new_f new_b then q ← idset_push q top; Some (q, true) else Some (q, true)) q;
    '(q, _) ← forall_upper_triangles_of_arc c xy
      (fun bottom mid top _ _ _ q =>
         xf ← m_fwd m !! mid; xb ← m_bwd m !! mid; tf ← m_fwd m !! top; tb ← m_bwd m !! top;
         if must_push xf old_b xb old_f tf tb new_b new_f then q ← idset_push q top; Some (q, true) else Some (q, true)) q;
    Some (q, m)
  else Some (q, m).

(** :978-1035. The fuel bounds the number of iterations. *)
Fixpoint partial_loop (asserts : bool) (c : cch) (w : list N) (fuel : nat) (q : idset) (m : metric) : option (idset * metric) :=
  if idset_empty q then Some (q, m) else
  match fuel with
  | O => None
  | S fuel => '(q, m) ← partial_step asserts c w q m; partial_loop asserts c w fuel q m
  end.

(** ** Queries *)

(** :1055-1066 and 1068-1071. [None] as [x] or [stop_at] is invalid_id. [f] returns
    whether to go on. The number of nodes is enough fuel. *)
Fixpoint forall_ancestors {St} (parent : list (option nat)) (f : nat -> St -> option (St * bool))
    (fuel : nat) (x stop_at : option nat) (s : St) : option St :=
  if decide (x = stop_at) then Some s else
  match fuel with
  | O => None
  | S fuel =>
      x ← x;
      p ← parent !! x;
      '(s, go) ← f x s;
      if (go : bool) then forall_ancestors parent f fuel p stop_at s else Some s
  end.

(** One direction of a query: tentative distances, predecessor nodes, search space
    flags, start nodes and where their part of the elimination tree ends
    (customizable_contraction_hierarchy.h:161-169). *)
Record side := mkSide { td : list N; pr : list (option nat); insp : list bool;
  nodes : list nat; ends : list (option nat) }.

(** :1044-1049 *)
Inductive qstate := Initialized | Run | SourcePinned | SourceRun | TargetPinned | TargetRun.
Global Instance qstate_eq_dec : EqDecision qstate.
Proof. solve_decision. Defined.

Record query := mkQuery { q_fw : side; q_bw : side; q_meet : option nat; q_state : qstate }.

(** :1095-1105; the predecessors are value-initialised. *)
Definition new_side (n : nat) : side :=
  mkSide (replicate n inf_weight) (replicate n (Some 0)) (replicate n false) [] [].
Definition new_query (c : cch) : query :=
  mkQuery (new_side (c_node_count c)) (new_side (c_node_count c)) None Initialized.

(** :1074-1092 *)
Definition reset_source_list (c : cch) (s : side) : option side :=
  '(t, i) ← for_range 0 (length (nodes s)) (fun i st =>
      x ← nodes s !! i; e ← ends s !! i;
      forall_ancestors (c_parent c)
        (fun x '(t, ins) => ins ← wr ins x false; t ← wr t x inf_weight; Some ((t, ins), true))
        (length (c_parent c)) (Some x) e st) (td s, insp s);
  Some (mkSide t (pr s) i [] []).

(** :1108-1143 *)
Definition internal_add_source (c : cch) (external dist : _) (s : side) : option side :=
  x ← c_rank c !! external;
  t ← td s !! x;
  if decide (t = inf_weight) then
    tn ← wr (td s) x dist;
    p ← wr (pr s) x None;
    '(ins, e) ← forall_ancestors (c_parent c)
      (fun y '(ins, e) =>
         b ← ins !! y;
         if negb b then ins ← wr ins y true; Some ((ins, e), true)
         else Some ((ins, Some y), false))
      (length (c_parent c)) (Some x) None (insp s, None);
    Some (mkSide tn p ins (nodes s ++ [x]) (ends s ++ [e]))
  else
    tn ← min_to (td s) x dist; Some (mkSide tn (pr s) (insp s) (nodes s) (ends s)).

(** :1149-1163 *)
Definition q_add_source (c : cch) (q : query) (s : nat) (dist : N) : option query :=
  _ ← chk (bool_decide (q_state q = Initialized \/ q_state q = TargetPinned));
  f ← internal_add_source c s dist (q_fw q); Some (mkQuery f (q_bw q) (q_meet q) (q_state q)).
(** :1165-1179 *)
Definition q_add_target (c : cch) (q : query) (t : nat) (dist : N) : option query :=
  _ ← chk (bool_decide (q_state q = Initialized \/ q_state q = SourcePinned));
  b ← internal_add_source c t dist (q_bw q); Some (mkQuery (q_fw q) b (q_meet q) (q_state q)).

(** :1182-1199 *)
Definition relax_outgoing (c : cch) (w : list N) (x : nat) (st : list N * list (option nat)) : option (list N * list (option nat)) :=
  lo ← up_first_out c !! x; hi ← up_first_out c !! S x;
  for_range lo hi (fun xy '(t, p) =>
      y ← up_head c !! xy; tx ← t !! x; wxy ← w !! xy; ty ← t !! y;
      if decide (add32 tx wxy < ty)%N then
        t ← wr t y (add32 tx wxy); p ← wr p y (Some x); Some (t, p)
      else Some (t, p)) st.
(** :1201-1217, without predecessors *)
Definition relax_incoming (c : cch) (w : list N) (x : nat) (t : list N) : option (list N) :=
  lo ← up_first_out c !! x; hi ← up_first_out c !! S x;
  for_range lo hi (fun xy t =>
      y ← up_head c !! xy; ty ← t !! y; wxy ← w !! xy; tx ← t !! x;
      if decide (add32 ty wxy < tx)%N then wr t x (add32 ty wxy) else Some t) t.

(** The loops [for(i = size-1; i != -1; --i) forall_ancestors(...)] (1224-1238,
    1250-1270, 1591-1600, 1632-1645, 1649-1658);
    [cnt] is [i+1]. *)
Fixpoint for_segments {St} (c : cch) (s : side) (f : nat -> St -> option St) (cnt : nat) (st : St) : option St :=
  match cnt with
  | O => Some st
  | S i =>
      x ← nodes s !! i; e ← ends s !! i;
      st ← forall_ancestors (c_parent c) (fun x st => st ← f x st; Some (st, true)) (length (c_parent c)) (Some x) e st;
      for_segments c s f i st
  end.

(** :1221-1279 *)
Definition q_run (c : cch) (m : metric) (q : query) : option query :=
  _ ← chk (bool_decide (q_state q = Initialized));
  let f := q_fw q in let b := q_bw q in
  '(tf, pf) ← for_segments c f (relax_outgoing c (m_fwd m)) (length (nodes f)) (td f, pr f);
  '(tb, pb, meet, _) ← for_segments c b (fun x '(tb, pb, meet, best) =>
      '(tb, pb) ← relax_outgoing c (m_bwd m) x (tb, pb);
      i ← insp f !! x;
      if (i : bool) then
        a ← tf !! x; b ← tb !! x;
        if decide (add32 a b < best)%N then Some (tb, pb, Some x, add32 a b) else Some (tb, pb, meet, best)
      else Some (tb, pb, meet, best)) (length (nodes b)) (td b, pr b, None, inf_weight);
  Some (mkQuery (mkSide tf pf (insp f) (nodes f) (ends f)) (mkSide tb pb (insp b) (nodes b) (ends b)) meet Run).

(** :1281-1287 *)
Definition q_get_distance (q : query) : option N :=
  _ ← chk (bool_decide (q_state q = Run));
  match q_meet q with
  | None => Some inf_weight
  | Some x => a ← td (q_fw q) !! x; b ← td (q_bw q) !! x; Some (add32 a b)
  end.

(** The loops over the predecessors (1294-1297, 1307-1310, 1403-1409, 1421-1432): all nodes from
    [x] to the start node. *)
Fixpoint pred_walk (p : list (option nat)) (fuel x : nat) : option (list nat) :=
  match fuel with
  | O => None
  | S fuel => o ← p !! x; match o with None => Some [x] | Some y => r ← pred_walk p fuel y; Some (x :: r) end
  end.

(** :1289-1313; the inner option is invalid_id *)
Definition q_used (c : cch) (q : query) (s : side) : option (option nat) :=
  _ ← chk (bool_decide (q_state q = Run));
  match q_meet q with
  | None => Some None
  | Some x => r ← pred_walk (pr s) (length (pr s)) x; l ← list.last r; o ← c_order c !! l; Some (Some o)
  end.
Definition q_used_source (c : cch) (q : query) := q_used c q (q_fw q).
Definition q_used_target (c : cch) (q : query) := q_used c q (q_bw q).

(** ** Unpacking *)

(** :1342-1392; the list of segments (node, arc, is_forward) in the order in which
    on_new_segment is called. Bottom nodes decrease, so the node count is enough fuel. *)
Fixpoint unpack_arc (c : cch) (m : metric) (fuel : nat) (fwd : bool) (x y xy : nat) : option (list (nat * nat * bool)) :=
  match fuel with
  | O => None
  | S fuel =>
      t ← up_tail c !! xy; h ← up_head c !! xy; _ ← chk (bool_decide (x = t /\ y = h));
      '(r, _) ← forall_lower_triangles c x y xy
         (fun bottom mid top bottom_node _ _ s =>
            ft ← m_fwd m !! top; bt ← m_bwd m !! top;
            fb ← m_fwd m !! bottom; bb ← m_bwd m !! bottom; fm ← m_fwd m !! mid; bm ← m_bwd m !! mid;
            let fits := if fwd then N.eqb ft (add32 bb fm) else N.eqb bt (add32 fb bm) in
            if (fits : bool) then Some (Some (bottom_node, bottom, mid), false) else Some (s, true)) None;
      match r with
      | None => Some [(if fwd then x else y, xy, fwd)]
      | Some (z, bottom, mid) =>
          if fwd then
            p ← unpack_arc c m fuel false z x bottom; q ← unpack_arc c m fuel true z y mid; Some (p ++ q)
          else
            p ← unpack_arc c m fuel false z y mid; q ← unpack_arc c m fuel true z x bottom; Some (p ++ q)
      end
  end.

(** :1411-1418: [l] is up_path; from its last pair to its first. *)
Fixpoint unpack_up (c : cch) (m : metric) (l : list nat) : option (list (nat * nat * bool)) :=
  match l with
  | y :: ((x :: _) as l') =>
      r ← unpack_up c m l';
      xy ← find_arc_given_sorted_head (up_first_out c) (up_head c) x y;
      s ← unpack_arc c m (c_node_count c) true x y xy; Some (r ++ s)
  | _ => Some []
  end.
(** :1420-1434: [l] are the nodes from the meeting node to the target. *)
Fixpoint unpack_down (c : cch) (m : metric) (l : list nat) : option (list (nat * nat * bool)) :=
  match l with
  | x :: ((y :: _) as l') =>
      xy ← find_arc_given_sorted_head (up_first_out c) (up_head c) y x;
      s ← unpack_arc c m (c_node_count c) false y x xy;
      r ← unpack_down c m l'; Some (s ++ r)
  | _ => Some []
  end.
(** :1394-1435: the segments and the last node; [None] inside is "no path" *)
Definition unpack_shortest_path (c : cch) (m : metric) (q : query) : option (list (nat * nat * bool) * option nat) :=
  match q_meet q with
  | None => Some ([], None)
  | Some x =>
      up ← pred_walk (pr (q_fw q)) (length (pr (q_fw q))) x;
      down ← pred_walk (pr (q_bw q)) (length (pr (q_bw q))) x;
      a ← unpack_up c m up; b ← unpack_down c m down;
      Some (a ++ b, list.last down)
  end.

(** :1438-1452 *)
Definition q_node_path (c : cch) (m : metric) (q : query) : option (list nat) :=
  _ ← chk (bool_decide (q_state q = Run));
  '(segs, l) ← unpack_shortest_path c m q;
  p ← mapM (fun s => c_order c !! fst (fst s)) segs;
  match l with None => Some p | Some x => o ← c_order c !! x; Some (p ++ [o]) end.

(** :1471-1475, 1494-1498: the first extra input arc with the right weight *)
Fixpoint find_extra (extra : list nat) (w : list N) (v : N) (cnt j : nat) : option (option nat) :=
  match cnt with
  | O => Some None
  | S cnt => e ← extra !! j; x ← w !! e; if N.eqb v x then Some (Some e) else find_extra extra w v cnt (S j)
  end.
(** :1458-1480 and 1482-1503; the inner option is invalid_id *)
Definition unpack_original (c : cch) (w : list N) (fwd : bool) (m : metric) (a : nat) : option (option nat) :=
  let input := if fwd then fwd_input c else bwd_input c in
  let first := if fwd then first_extra_fwd c else first_extra_bwd c in
  let extra := if fwd then extra_fwd c else extra_bwd c in
  b ← has_input c !! a;
  if negb b then Some None else
  i ← local_id (has_input c) a;
  o ← input !! i;
  match o with
  | None => Some None
  | Some e =>
      v ← (if fwd then m_fwd m else m_bwd m) !! a; x ← w !! e;
      if N.eqb v x then Some (Some e) else
      b ← has_extra c !! a;
      if negb b then Some None else
      j ← local_id (has_extra c) a;
      lo ← first !! j; hi ← first !! S j;
      find_extra extra w v (hi - lo) lo
  end.
(** :1517-1537; the assertion that the arc exists is a [None] here. *)
Definition q_arc_path (c : cch) (m : metric) (w : list N) (q : query) : option (list nat) :=
  _ ← chk (bool_decide (q_state q = Run));
  '(segs, _) ← unpack_shortest_path c m q;
  mapM (fun s => o ← unpack_original c w (snd s) m (snd (fst s)); o) segs.

(** ** Pinned queries *)

(** :1540-1567 *)
Definition internal_pin (c : cch) (targets : list nat) (s : side) : option side :=
  '(ins, ns, es) ← for_each targets (fun t '(ins, ns, es) =>
      x ← c_rank c !! t;
      '(ins, e) ← forall_ancestors (c_parent c)
        (fun y '(ins, e) =>
           b ← ins !! y;
           if negb b then ins ← wr ins y true; Some ((ins, e), true)
           else Some ((ins, Some y), false))
        (length (c_parent c)) (Some x) None (ins, None);
      Some (ins, ns ++ [x], es ++ [e])) (insp s, [], []);
  Some (mkSide (td s) (pr s) ins ns es).
(** :1570-1575 *)
Definition q_pin_targets (c : cch) (q : query) (targets : list nat) : option query :=
  _ ← chk (bool_decide (q_state q = Initialized));
  b ← internal_pin c targets (q_bw q); Some (mkQuery (q_fw q) b (q_meet q) TargetPinned).
(** :1577-1582 *)
Definition q_pin_sources (c : cch) (q : query) (sources : list nat) : option query :=
  _ ← chk (bool_decide (q_state q = Initialized));
  f ← internal_pin c sources (q_fw q); Some (mkQuery f (q_bw q) (q_meet q) SourcePinned).

(** :1585-1601: [s] is the pinned side, [t] the distances of the other one. *)
Definition reset_target_distances (c : cch) (s : side) (t : list N) : option (list N) :=
  for_segments c s (fun x t => wr t x inf_weight) (length (nodes s)) t.

Definition with_td (s : side) (t : list N) : side := mkSide t (pr s) (insp s) (nodes s) (ends s).

(** :1604-1612 *)
Definition q_reset_source (c : cch) (q : query) : option query :=
  _ ← chk (bool_decide (q_state q = TargetPinned \/ q_state q = TargetRun));
  f ← reset_source_list c (q_fw q); t ← reset_target_distances c (q_bw q) (td f);
  Some (mkQuery (with_td f t) (q_bw q) (q_meet q) TargetPinned).
(** :1614-1622 *)
Definition q_reset_target (c : cch) (q : query) : option query :=
  _ ← chk (bool_decide (q_state q = SourcePinned \/ q_state q = SourceRun));
  b ← reset_source_list c (q_bw q); t ← reset_target_distances c (q_fw q) (td b);
  Some (mkQuery (q_fw q) (with_td b t) (q_meet q) SourcePinned).

(** :1660-1669, popping the stack; [cnt] is stack_end. *)
Fixpoint pop_stack (c : cch) (w : list N) (cnt : nat) (stack t : list N) : option (list N * list N) :=
  match cnt with
  | O => Some (stack, t)
  | S k =>
      x ← stack !! k; stack ← wr stack k inf_weight;
      t ← relax_incoming c w (N.to_nat x) t;
      pop_stack c w k stack t
  end.
(** :1625-1670. The predecessors are not touched; the tentative distances of the pinned
    side hold the stack. *)
Definition internal_run_to_pinned (c : cch) (fw bw : list N) (src tgt : side) : option (side * side) :=
  '(t, _) ← for_segments c src (fun x st => '(t, _) ← relax_outgoing c fw x st; Some (t, snd st)) (length (nodes src)) (td src, pr src);
  '(stack, stack_end) ← for_segments c tgt (fun x '(stack, e) => stack ← wr stack e (N.of_nat x); Some (stack, S e))
      (length (nodes tgt)) (td tgt, 0);
  '(stack, t) ← pop_stack c bw stack_end stack t;
  Some (with_td src t, with_td tgt stack).
(** :1673-1684 *)
Definition q_run_to_pinned_targets (c : cch) (m : metric) (q : query) : option query :=
  _ ← chk (bool_decide (q_state q = TargetPinned));
  '(f, b) ← internal_run_to_pinned c (m_fwd m) (m_bwd m) (q_fw q) (q_bw q);
  Some (mkQuery f b (q_meet q) TargetRun).
(** :1686-1697 *)
Definition q_run_to_pinned_sources (c : cch) (m : metric) (q : query) : option query :=
  _ ← chk (bool_decide (q_state q = SourcePinned));
  '(b, f) ← internal_run_to_pinned c (m_bwd m) (m_fwd m) (q_bw q) (q_fw q);
  Some (mkQuery f b (q_meet q) SourceRun).
(** :1699-1711 *)
Definition q_distances_to_targets (q : query) : option (list N) :=
  _ ← chk (bool_decide (q_state q = TargetRun));
  mapM (fun x => td (q_fw q) !! x) (nodes (q_bw q)).
(** :1713-1725 *)
Definition q_distances_to_sources (q : query) : option (list N) :=
  _ ← chk (bool_decide (q_state q = SourceRun));
  mapM (fun x => td (q_bw q) !! x) (nodes (q_fw q)).

(** :1894-1904 *)
Definition q_reset (c : cch) (q : query) : option query :=
  tf ← (if decide (q_state q = TargetPinned \/ q_state q = TargetRun)
        then reset_target_distances c (q_bw q) (td (q_fw q)) else Some (td (q_fw q)));
  tb ← (if decide (q_state q = SourcePinned \/ q_state q = SourceRun)
        then reset_target_distances c (q_fw q) (td (q_bw q)) else Some (td (q_bw q)));
  f ← reset_source_list c (with_td (q_fw q) tf);
  b ← reset_source_list c (with_td (q_bw q) tb);
  Some (mkQuery f b (q_meet q) Initialized).
(** :1906-1915: [same] says whether the metric belongs to the same CCH. *)
Definition q_reset_metric (c : cch) (same : bool) (q : query) : option query :=
  if same then q_reset c q else Some (new_query c).
