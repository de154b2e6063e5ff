(** Model of extra weights on contraction hierarchies
    (include/routingkit/contraction_hierarchy.h:69-102, 124-195, 241-282, 308-738).
    [W] is the type of the extra weights, [dflt] its default constructed value [Weight{}], [link] the
    link function, which must not throw. The template parameters TmpContainer and DistContainer are
    lists. *)
From Verif Require Import Base IdQueueModel IdSetModel ChBuildModel ChQueryModel.

Section extra.
Context {W : Type} (dflt : W) (link : W -> W -> W).

(** The parameter extra_weight: a container of the extra weights of the input arcs, or a
    ContractionHierarchyExtraWeight (:80, forward_weight and backward_weight). *)
Inductive extra := XInput (l : list W) | XArcs (fwd bwd : list W).

(** :310-321, 323-326 *)
Definition inverse_link (l r : W) : W := link r l.

(** get_forward_weight ([d] is true) and get_backward_weight of the generic ShortcutWeights (:340-356).
    The tail of the arc falls with every call, so the node count is enough fuel. *)
Fixpoint arc_extra (c : ch) (l : list W) (fuel : nat) (d : bool) (a : nat) : option W :=
  match fuel with
  | O => None
  | S fuel =>
      let g := if d then ch_fwd c else ch_bwd c in
      orig ← cs_orig g !! a; x ← cs_first g !! a;
      if (orig : bool) then l !! x else
      y ← cs_second g !! a;
      p ← arc_extra c l fuel false x; q ← arc_extra c l fuel true y; Some (link p q)
  end.
(** :340-356 and the specialisation for ContractionHierarchyExtraWeight (:369-375) *)
Definition get_weight (c : ch) (e : extra) (d : bool) (a : nat) : option W :=
  match e with
  | XInput l => arc_extra c l (ch_nodes c) d a
  | XArcs f b => (if d then f else b) !! a
  end.

(** ** ContractionHierarchyExtraWeight::reset *)
(** The bodies of the two inner loops (:517-524, 527-534); [d] is true for the forward direction. The
    pair is forward_weight and backward_weight. *)
Definition reset_arc (c : ch) (l : list W) (d : bool) (xy : nat) (fb : list W * list W) : option (list W * list W) :=
  let '(f, b) := fb in
  let g := if d then ch_fwd c else ch_bwd c in
  orig ← cs_orig g !! xy; x ← cs_first g !! xy;
  v ← (if (orig : bool) then l !! x
       else y ← cs_second g !! xy; p ← b !! x; q ← f !! y; Some (link p q));
  if d then f ← wr f xy v; Some (f, b) else b ← wr b xy v; Some (f, b).
(** :516-525, 526-535 *)
Definition reset_arcs (c : ch) (l : list W) (d : bool) (x : nat) (fb : list W * list W) : option (list W * list W) :=
  let g := if d then ch_fwd c else ch_bwd c in
  lo ← cs_first_out g !! x; hi ← cs_first_out g !! S x;
  for_range lo hi (reset_arc c l d) fb.
(** vector::resize *)
Definition resize (n : nat) (l : list W) : list W := take n l ++ replicate (n - length l) dflt.
(** :508-538; [old] are the vectors before the call. *)
Definition extra_reset (c : ch) (l : list W) (old : list W * list W) : option (list W * list W) :=
  let f := resize (length (cs_weight (ch_fwd c))) (fst old) in
  let b := resize (length (cs_weight (ch_bwd c))) (snd old) in
  for_range 0 (ch_nodes c) (fun x fb => fb ← reset_arcs c l true x fb; reset_arcs c l false x fb) (f, b).

(** ** get_extra_weight_distance *)
(** :420-423 *)
Fixpoint up_loop (lnk : W -> W -> W) (get : nat -> option W) (s : cside) (fuel x : nat) (ret : W) : option W :=
  match fuel with
  | O => None
  | S fuel =>
      o ← s_pnode s !! x;
      match o with
      | None => Some ret
      | Some y => a ← s_parc s !! x; a ← a; v ← get a; up_loop lnk get s fuel y (lnk v ret)
      end
  end.
(** :405-425 *)
Definition up_distance (lnk : W -> W -> W) (get : nat -> option W) (s : cside) (x : nat) : option W :=
  o ← s_pnode s !! x; y ← o;
  a ← s_parc s !! x; a ← a; v ← get a;
  up_loop lnk get s (length (s_pnode s)) y v.
(** :428-487 *)
Definition internal_extra_distance (get : bool -> nat -> option W) (meet : option nat) (f b : cside) : option W :=
  match meet with
  | None => Some dflt
  | Some x =>
      up ← s_pnode f !! x; down ← s_pnode b !! x;
      match up, down with
      | None, None => Some dflt
      | Some _, Some _ => u ← up_distance link (get true) f x; d ← up_distance inverse_link (get false) b x; Some (link u d)
      | Some _, None => up_distance link (get true) f x
      | None, Some _ => up_distance inverse_link (get false) b x
      end
  end.
(** :491-506 *)
Definition cq_extra_distance (q : cquery) (e : extra) : option W :=
  _ ← chk (bool_decide (cq_state q = CRun));
  internal_extra_distance (get_weight (cq_ch q) e) (cq_meet q) (cq_fw q) (cq_bw q).

(** ** Pinned queries *)
(** The local variables of extract_distances_to_targets: has_source_to_node_distance,
    source_to_node_distance, stack with stack_size, nodes_on_stack_with_forward_precessor_count. *)
Record xstate := mkXstate { x_has : flags; x_tmp : list W; x_stack : list (option nat); x_size : nat; x_fcount : nat }.

(** :573-576, and the counter (:626) for nodes with a forward predecessor *)
Definition x_push (fwd : bool) (x : nat) (st : xstate) : option xstate :=
  k ← wr (x_stack st) (x_size st) (Some x);
  Some (mkXstate (x_has st) (x_tmp st) k (S (x_size st)) (if fwd then S (x_fcount st) else x_fcount st)).
(** :615-622: the node reached, or [None] if the function has returned; every node is larger than the
    one before. *)
Fixpoint push_down (g : chside) (s : cside) (fuel x : nat) (st : xstate) : option (xstate * option nat) :=
  match fuel with
  | O => None
  | S fuel =>
      b ← is_set (s_pushed s) x;
      if (b : bool) then Some (st, Some x) else
      st ← x_push false x st;
      a ← s_parc s !! x; a ← a; y ← cs_head g !! a; _ ← chk (bool_decide (x < y));
      h ← is_set (x_has st) y;
      if (h : bool) then Some (st, None) else push_down g s fuel y st
  end.
(** :623-633; every node is smaller than the one before. *)
Fixpoint push_up (s : cside) (fuel x : nat) (st : xstate) : option xstate :=
  match fuel with
  | O => None
  | S fuel =>
      o ← s_pnode s !! x;
      match o with
      | None => t ← wr (x_tmp st) x dflt; Some (mkXstate (x_has st) t (x_stack st) (x_size st) (x_fcount st))
      | Some y =>
          b ← is_set (s_pushed s) x; _ ← chk b;
          st ← x_push true x st;
          _ ← chk (bool_decide (y < x));
          h ← is_set (x_has st) y;
          if (h : bool) then Some st else push_up s fuel y st
      end
  end.
(** :613-634 *)
Definition push_non_reached (n : nat) (g : chside) (s : cside) (x : nat) (st : xstate) : option xstate :=
  h ← is_set (x_has st) x; _ ← chk (negb h);
  '(st, o) ← push_down g s n x st;
  match o with None => Some st | Some y => push_up s n y st end.

(** :591-595, 605-610; [p] is the predecessor and [v] the weight of the arc. *)
Definition x_step (lnk : W -> W -> W) (x p : nat) (v : W) (st : xstate) : option xstate :=
  h ← is_set (x_has st) p;
  v ← (if (h : bool) then r ← x_tmp st !! p; Some (lnk r v) else Some v);
  t ← wr (x_tmp st) x v; f ← set_flag (x_has st) x;
  Some (mkXstate f t (x_stack st) (x_size st) (x_fcount st)).
(** :583-596 *)
Definition forward_step (lnk : W -> W -> W) (get : bool -> nat -> option W) (s : cside) (x : nat) (st : xstate) : option xstate :=
  h ← is_set (x_has st) x; _ ← chk (negb h); b ← is_set (s_pushed s) x; _ ← chk b;
  a ← s_parc s !! x; a ← a; p ← s_pnode s !! x; p ← p;
  v ← get true a; x_step lnk x p v st.
(** :598-611 *)
Definition backward_step (lnk : W -> W -> W) (get : bool -> nat -> option W) (g : chside) (s : cside) (x : nat) (st : xstate) : option xstate :=
  h ← is_set (x_has st) x; _ ← chk (negb h); b ← is_set (s_pushed s) x; _ ← chk (negb b);
  a ← s_parc s !! x; a ← a; p ← cs_head g !! a;
  v ← get false a; x_step lnk x p v st.
(** :639-647; every round pops a node, the fuel is the size of the stack. *)
Fixpoint unwind (lnk : W -> W -> W) (get : bool -> nat -> option W) (g : chside) (s : cside) (size : nat) (st : xstate) : option xstate :=
  match size with
  | O => Some st
  | S size =>
      y ← x_stack st !! size; y ← y;
      let pop k := mkXstate (x_has st) (x_tmp st) (x_stack st) size k in
      st ← match x_fcount st with
           | S k => forward_step lnk get s y (pop k)
           | O => backward_step lnk get g s y (pop 0)
           end;
      unwind lnk get g s size st
  end.
(** :636-649 *)
Definition expand_distances (lnk : W -> W -> W) (get : bool -> nat -> option W) (n : nat) (g : chside) (s : cside) (x : nat) (st : xstate) : option xstate :=
  h ← is_set (x_has st) x;
  if (h : bool) then Some st else
  st ← push_non_reached n g s x st;
  unwind lnk get g s (x_size st) st.
(** :655-660 *)
Definition extract_extra (lnk : W -> W -> W) (get : bool -> nat -> option W) (n : nat) (g : chside) (s : cside) (t : nat) (st : xstate) : option (W * xstate) :=
  b ← is_set (s_pushed s) t;
  unreached ← (if (b : bool) then Some false else a ← s_parc s !! t; Some (bool_decide (a = None)));
  if (unreached : bool) then Some (dflt, st) else
  st ← expand_distances lnk get n g s t st;
  v ← x_tmp st !! t; Some (v, st).
(** :541-662: [p] is the pinned side, [s] the other one, [g] the direction in which the pinned nodes
    go up. The flags, the temporary vector and the stack at the end, and the output. *)
Definition extract_extras (lnk : W -> W -> W) (get : bool -> nat -> option W) (n : nat) (g : chside) (p s : cside) (cnt : nat) (tmp out : list W) : option (cside * list W * list W) :=
  '(st, out) ← for_range 0 cnt (fun i '(st, out) =>
      o ← s_pnode p !! i; t ← o;
      '(v, st) ← extract_extra lnk get n g s t st;
      out ← wr out i v; Some (st, out)) (mkXstate (reset_all (s_pushed p)) tmp (s_parc p) 0 0, out);
  Some (mkCSide (x_has st) (s_queue p) (s_dist p) (s_pnode p) (x_stack st), x_tmp st, out).

(** :665-699; the object, tmp and dist after the call. *)
Definition cq_extra_to_targets (q : cquery) (e : extra) (tmp dist : list W) : option (cquery * list W * list W) :=
  _ ← chk (bool_decide (cq_state q = CTargetRun));
  cnt ← cq_count q;
  '(p, tmp, dist) ← extract_extras link (get_weight (cq_ch q) e) (ch_nodes (cq_ch q)) (ch_bwd (cq_ch q)) (cq_bw q) (cq_fw q) cnt tmp dist;
  Some (mkCQuery (cq_ch q) (cq_fw q) p (cq_meet q) (cq_count q) (cq_state q), tmp, dist).
(** :701-738; inverse_shortcut_weights (:383-403) swaps the directions. *)
Definition cq_extra_to_sources (q : cquery) (e : extra) (tmp dist : list W) : option (cquery * list W * list W) :=
  _ ← chk (bool_decide (cq_state q = CSourceRun));
  cnt ← cq_count q;
  '(p, tmp, dist) ← extract_extras inverse_link (fun d => get_weight (cq_ch q) e (negb d)) (ch_nodes (cq_ch q)) (ch_fwd (cq_ch q)) (cq_fw q) (cq_bw q) cnt tmp dist;
  Some (mkCQuery (cq_ch q) p (cq_bw q) (cq_meet q) (cq_count q) (cq_state q), tmp, dist).
(** :251-260, 273-282: dist is allocated with one default element for every pinned node. *)
Definition cq_extra_to (d : bool) (q : cquery) (e : extra) (tmp : list W) : option (cquery * list W * list W) :=
  _ ← chk (bool_decide (cq_state q = if d then CTargetRun else CSourceRun));
  cnt ← cq_count q;
  (if d then cq_extra_to_targets else cq_extra_to_sources) q e tmp (replicate cnt dflt).
(** :241-249, 263-271: tmp is allocated, too. *)
Definition cq_extra_to_new (d : bool) (q : cquery) (e : extra) : option (cquery * list W) :=
  '(q, _, dist) ← cq_extra_to d q e (replicate (ch_nodes (cq_ch q)) dflt); Some (q, dist).
End extra.
Arguments extra : clear implicits.
Arguments xstate : clear implicits.
