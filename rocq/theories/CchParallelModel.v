(** Model of CustomizableContractionHierarchyParallelization
    (src/customizable_contraction_hierarchy.cpp:807-945). Line numbers refer to that file.
    [None] is undefined behaviour or a non-terminating loop.

    The parallel loops are a transition system: a thread takes any number of iterations
    from those that are left and executes them one memory access at a time; the accesses of
    the threads interleave arbitrarily (sequential consistency; a plain 32-bit load that
    races with a compare-and-swap counts as one access although the C++ standard calls it
    undefined). Every OpenMP schedule and every number of threads is an instance. *)
From Verif Require Import Base PermutationModel SortModel CchModel.

(** ** The constructor (836-895) *)

(** :859-866, the loop over the arcs of [x]. [locks] and the nodes whose lock became zero;
    the array next_zero_lock_list is the list of its first next_zero_lock_count elements, and
    writing behind its end is an error. A decrement of 0 would wrap; here it is an error. *)
Definition unlock_arc (c : cch) (xy : nat) (st : list nat * list nat) : option (list nat * list nat) :=
  let '(locks, next) := st in
  y ← up_head c !! xy;
  k ← locks !! y;
  match k with
  | O => None
  | S k =>
      locks ← wr locks y k;
      if decide (k = 0) then _ ← chk (bool_decide (length next < c_node_count c)); Some (locks, next ++ [y])
      else Some (locks, next)
  end.
(** :857-867 *)
Definition unlock_node (c : cch) (level x : nat) (st : list nat * list nat * list nat) : option (list nat * list nat * list nat) :=
  let '(node_level, locks, next) := st in
  node_level ← wr node_level x level;
  lo ← up_first_out c !! x; hi ← up_first_out c !! S x;
  '(locks, next) ← for_range lo hi (unlock_arc c) (locks, next);
  Some (node_level, locks, next).
(** :853-873. Every round settles a node, so the number of nodes is enough fuel. *)
Fixpoint level_loop (c : cch) (fuel level : nat) (zero node_level locks : list nat) : option (nat * list nat) :=
  match zero with
  | [] => Some (level, node_level)
  | _ =>
      match fuel with
      | O => None
      | S fuel =>
          '(node_level, locks, next) ← for_each zero (unlock_node c level) (node_level, locks, []);
          level_loop c fuel (S level) next node_level locks
      end
  end.
(** :843-850 *)
Definition initial_locks (c : cch) : option (list nat * list nat) :=
  for_range 0 (c_node_count c) (fun x '(locks, zero) =>
    hi ← down_first_out c !! S x; lo ← down_first_out c !! x;
    locks ← wr locks x (hi - lo);
    if decide (hi - lo = 0) then _ ← chk (bool_decide (length zero < c_node_count c)); Some (locks, zero ++ [x])
    else Some (locks, zero)) (replicate (c_node_count c) 0, []).
(** :839-874: number of levels and the level of each node *)
Definition compute_levels (c : cch) : option (nat * list nat) :=
  '(locks, zero) ← initial_locks c;
  level_loop c (c_node_count c) 0 zero (replicate (c_node_count c) 0) locks.

(** CustomizableContractionHierarchyParallelization (customizable_contraction_hierarchy.h:106-118) *)
Record levels := mkLevels { first_arc_of_level : list nat; arcs_by_level : list nat }.
(** :876-892. arc_level and arcs_ordered_by_level are filled front to back; [j] is the length. *)
Definition build_levels (c : cch) : option levels :=
  '(level_count, node_level) ← compute_levels c;
  p ← compute_stable_sort_permutation_using_key (fun x => x) node_level level_count;
  '(arc_level, arcs) ← for_range 0 (c_node_count c) (fun i '(al, arcs) =>
      x ← p !! i; lo ← up_first_out c !! x; hi ← up_first_out c !! S x;
      for_range lo hi (fun xy '(al, arcs) =>
        l ← node_level !! x;
        _ ← chk (bool_decide (length arcs < c_arc_count c));
        Some (al ++ [l], arcs ++ [xy])) (al, arcs)) ([], []);
  fo ← invert_vector arc_level level_count;
  Some (mkLevels fo arcs).

(** ** What the iterations do with the shared metric *)

(** [d]: the forward weights, otherwise the backward weights. *)
Inductive mop :=
  | MSet (d : bool) (a : nat) (x : N)              (* weights[a] = x *)
  | MMin (d : bool) (a : nat) (x : N)              (* min_to(weights[a], x), not atomic *)
  | MRelax (d : bool) (bottom mid top : nat).      (* atomic_min_to(weights[top], ...) *)

(** :665-674 and 677-681 as accesses of the metric; the rest of the data does not change. *)
Definition extra_ops (d : bool) (first extra : list nat) (i : nat) (w : list N) (a : nat) : option (list mop) :=
  lo ← first !! i; hi ← first !! S i;
  mapM (fun j => e ← extra !! j; x ← w !! e; Some (MMin d a x)) (seq lo (hi - lo)).
(** :659-684, extract_initial_metric_of_cch_arc *)
Definition extract_ops (c : cch) (w : list N) (a : nat) : option (list mop) :=
  b ← has_input c !! a;
  if negb b then Some [MSet true a inf_weight; MSet false a inf_weight]
  else
    i ← local_id (has_input c) a;
    x ← first_weight (fwd_input c) i w;
    y ← first_weight (bwd_input c) i w;
    e ← has_extra c !! a;
    if (e : bool) then
      i ← local_id (has_extra c) a;
      f ← extra_ops true (first_extra_fwd c) (extra_fwd c) i w a;
      g ← extra_ops false (first_extra_bwd c) (extra_bwd c) i w a;
      Some (MSet true a x :: MSet false a y :: f ++ g)
    else Some [MSet true a x; MSet false a y].
(** :932-933: AtomicLowerTriangleRelaxer (816-834) on the upper triangles of an arc *)
Definition relax_ops (c : cch) (a : nat) : option (list mop) :=
  '(ops, _) ← forall_upper_triangles_of_arc c a
    (fun bottom mid top _ _ _ ops => Some (ops ++ [MRelax true bottom mid top; MRelax false bottom mid top], true)) [];
  Some ops.

(** ** Threads *)

(** Where a thread is within an access: loaded the old value of a min_to; loaded the weight
    of the bottom arc; computed the sum [y]; loaded [z] (808-813). The two operands of the sum
    are loaded one after the other; C++ does not fix the order. *)
Inductive phase := P0 | PMin (v : N) | P1 (x : N) | P2 (y : N) | P3 (y z : N).
Record thr := mkThr { prog : list mop; ph : phase }.

Definition rd (m : metric) (d : bool) (a : nat) : option N := (if d then m_fwd m else m_bwd m) !! a.
Definition st (m : metric) (d : bool) (a : nat) (x : N) : option metric :=
  if d then f ← wr (m_fwd m) a x; Some (mkMetric f (m_bwd m)) else g ← wr (m_bwd m) a x; Some (mkMetric (m_fwd m) g).

(** One memory access of a thread (808-813 for the compare-and-swap loop). *)
Definition thread_step (m : metric) (t : thr) : option (metric * thr) :=
  match prog t with
  | MSet d a x :: r => match ph t with P0 => m ← st m d a x; Some (m, mkThr r P0) | _ => None end
  | MMin d a x :: r =>
      match ph t with
      | P0 => v ← rd m d a; Some (m, mkThr (prog t) (PMin v))
      | PMin v => m ← (if N.ltb x v then st m d a x else Some m); Some (m, mkThr r P0)
      | _ => None
      end
  | MRelax d b mi tp :: r =>
      match ph t with
      | P0 => x ← rd m (negb d) b; Some (m, mkThr (prog t) (P1 x))
      | P1 x => y ← rd m d mi; Some (m, mkThr (prog t) (P2 (add32 x y)))
      | P2 y => z ← rd m d tp; Some (m, mkThr (prog t) (P3 y z))
      | P3 y z =>
          if N.ltb y z then
            cur ← rd m d tp;
            if N.eqb cur z then m ← st m d tp y; Some (m, mkThr r P0)
            else Some (m, mkThr (prog t) (P2 y))
          else Some (m, mkThr r P0)
      | PMin _ => None
      end
  | [] => None
  end.

(** The metric, the iterations of the current parallel loop no thread has taken, the
    threads, and the parallel loops still to come. *)
Record config := mkConfig { mem : metric; pend : list (list mop); ths : list thr; stages : list (list (list mop)) }.
Definition idle (t : thr) : Prop := prog t = [] /\ ph t = P0.

(** :919-937 *)
Inductive step : config -> config -> Prop :=
  | step_thread i t m' t' cf : ths cf !! i = Some t -> thread_step (mem cf) t = Some (m', t') ->
      step cf (mkConfig m' (pend cf) (<[i := t']> (ths cf)) (stages cf))
  | step_take i t before chunk after cf : ths cf !! i = Some t -> idle t -> pend cf = before ++ chunk ++ after -> chunk <> [] ->
      step cf (mkConfig (mem cf) (before ++ after) (<[i := mkThr (concat chunk) P0]> (ths cf)) (stages cf))
  | step_barrier p rest cf : pend cf = [] -> Forall idle (ths cf) -> stages cf = p :: rest ->
      step cf (mkConfig (mem cf) p (ths cf) rest).
Definition final (cf : config) : Prop := pend cf = [] /\ Forall idle (ths cf) /\ stages cf = [].

(** The iterations of the loop over level [l] (929-934). *)
Definition level_jobs (c : cch) (lv : levels) (l : nat) : option (list (list mop)) :=
  lo ← first_arc_of_level lv !! l; hi ← first_arc_of_level lv !! S l;
  mapM (fun i => a ← arcs_by_level lv !! i; relax_ops c a) (seq lo (hi - lo)).
(** :907-945 with [threads] > 1 threads at the beginning of the first loop *)
Definition start (c : cch) (lv : levels) (w : list N) (threads : nat) (m : metric) : option config :=
  first ← mapM (extract_ops c w) (seq 0 (c_arc_count c));
  rest ← mapM (level_jobs c lv) (seq 0 (length (first_arc_of_level lv) - 1));
  Some (mkConfig m first (replicate threads (mkThr [] P0)) rest).
