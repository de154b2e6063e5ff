(** Model of the programs that compute distances: src/run_dijkstra.cpp ([d:]), src/compute_contraction_hierarchy.cpp
    ([c:]), src/run_contraction_hierarchy_query.cpp ([r:]) and src/generate_dijkstra_rank_test_queries.cpp ([g:]).

    A program is a function from the bytes of the files that it reads to the bytes of the files that it writes.
    All files exist and can be written; [Throw] means that the program stops with an error message and
    writes no file, [None] is undefined behaviour. Messages and running times are left out. Vectors have less
    than 2^32 elements. *)
From Verif Require Import Base ProtobufModel BitVectorModel VectorIoModel PermutationModel IdQueueModel IdSetModel DijkstraModel ChBuildModel ChQueryModel ChCheckModel ChFileModel VerifyModel.

(** vector_io.h:24-38 for vector<unsigned>: as ids and as weights *)
Definition load_ids (file : list N) : option (result (list nat)) := Some (load_vector 4 dec_id file).
Definition load_words (file : list N) : option (result (list N)) := Some (load_vector 4 le_word file).
(** vector_io.h:15-22 *)
Definition save_ids (l : list nat) : list N := save_vector enc_id l.
Definition save_words (l : list N) : list N := save_vector (le_bytes 4) l.

(** The division by query_count (d:109, r:70); the result is only printed. *)
Definition print_average (query_count : nat) : option () := chk (negb (query_count =? 0)).

(** ** run_dijkstra.cpp *)
(** d:93-97: until the target is settled or nothing is left. Every node is settled at most once. *)
Fixpoint settle_until (fuel : nat) (d : dijkstra) (w : nat -> N -> option N) (target : nat) : option dijkstra :=
  match fuel with
  | O => None
  | S fuel =>
      if is_finished d then Some d else
      '((x, _), d) ← settle d w;
      if x =? target then Some d else settle_until fuel d w target
  end.
(** d:92-98 *)
Definition dijkstra_query (w : nat -> N -> option N) (d : dijkstra) (source target : nat) : option (N * dijkstra) :=
  d ← d_reset d; d ← add_source d source 0%N;
  d ← settle_until (S (node_count (d_graph d))) d w target;
  x ← get_distance_to d target; Some (x, d).
(** d:88-104; the sizes of the vectors are equal *)
Fixpoint dijkstra_queries (w : nat -> N -> option N) (d : dijkstra) (queries : list (nat * nat)) : option (list N) :=
  match queries with
  | [] => Some []
  | (s, t) :: queries => '(x, d) ← dijkstra_query w d s t; xs ← dijkstra_queries w d queries; Some (x :: xs)
  end.
(** d:47-62, c:44-60 without 55-56: the checks of the graph. Result: the tails. *)
Definition check_graph (first_out head : list nat) (weight : list N) : option (result (list nat)) :=
  andthen (check_if_graph_is_valid first_out head) (fun _ =>
  tail ← invert_inverse_vector first_out;
  front ← first_out !! 0; back ← last first_out;
  andthen (throw_if (negb (front =? 0))) (fun _ =>
  andthen (throw_if (negb (back =? length head))) (fun _ =>
  m ← max_element_of head;
  andthen (throw_if (length first_out - 1 <=? m)) (fun _ =>
  andthen (throw_if (negb (length weight =? length head))) (fun _ => Some (Ret tail)))))).
(** d:40-111 *)
Definition run_dijkstra (first_out_file head_file weight_file source_file target_file : list N) : option (result (list N)) :=
  andthen (load_ids first_out_file) (fun first_out =>
  andthen (load_ids head_file) (fun head =>
  andthen (load_words weight_file) (fun weight =>
  andthen (check_graph first_out head weight) (fun tail =>
  andthen (load_ids source_file) (fun source =>
  andthen (load_ids target_file) (fun target =>
  andthen (throw_if (negb (length source =? length target))) (fun _ =>
  distance ← dijkstra_queries (scalar_weight weight) (new_dijkstra (mkGraph first_out tail head)) (zip source target);
  _ ← print_average (length source);
  Some (Ret (save_words distance))))))))).

(** ** compute_contraction_hierarchy.cpp *)
(** The object with its bit vectors, which are made without initialising them and then filled
    (contraction_hierarchy.cpp:992-1088); [gf] and [gb] is what was in the memory. *)
Definition object_of (gf gb : list N) (c : ch) : option chobj :=
  let side g s := v ← make_bit_vector g (length (cs_orig s)) (fun i => nth i (cs_orig s) false);
    Some (mkFside (cs_first_out s) (cs_head s) (cs_weight s) v (cs_first s) (cs_second s)) in
  f ← side gf (ch_fwd c); b ← side gb (ch_bwd c);
  Some (mkObj (ch_rank c) (ch_order c) f b).
(** c:37-65. That there are arcs is checked between the others, all of which repeat the first; here it comes right after that. The default for max_pop_count is 500 (contraction_hierarchy.h:20-25). The constructor of the file (save_ch) leaves the
    four bytes [pad] of its header unset. [memory] gives the contents of the new memory for a size. *)
Definition compute_contraction_hierarchy (asserts : bool) (pad : list N) (memory : nat -> list N) (first_out_file head_file weight_file : list N) : option (result (list N)) :=
  andthen (load_ids first_out_file) (fun first_out =>
  andthen (load_ids head_file) (fun head =>
  andthen (load_words weight_file) (fun weight =>
  andthen (check_if_graph_is_valid first_out head) (fun _ =>
  andthen (throw_if (length head =? 0)) (fun _ =>
  andthen (check_graph first_out head weight) (fun tail =>
  c ← ch_build asserts 500 (length first_out - 1) tail head weight;
  ok ← check_ch c;
  andthen (throw_if (negb ok)) (fun _ =>
  o ← object_of (memory (length (cs_orig (ch_fwd c)))) (memory (length (cs_orig (ch_bwd c)))) c;
  Some (Ret (save_ch pad o))))))))).

(** ** run_contraction_hierarchy_query.cpp *)
(** The hierarchy that was loaded. The bits are looked up when they are needed, here at once. *)
Definition ch_of_object (o : chobj) : option ch :=
  let side s := l ← mapM (bv_is_set (f_orig s)) (seq 0 (bv_size (f_orig s)));
    Some (mkChside (f_first_out s) (f_head s) (f_weight s) l (f_first s) (f_second s)) in
  f ← side (o_fwd o); b ← side (o_bwd o);
  Some (mkCh (o_rank o) (o_order o) f b).
(** r:60 *)
Definition ch_query (q : cquery) (s t : nat) : option (N * cquery) :=
  q ← cq_reset q; q ← cq_add_source q s 0%N; q ← cq_add_target q t 0%N; q ← cq_run q;
  x ← cq_distance q; Some (x, q).
(** r:57-65; the number of targets is not compared with that of the sources, target[i] may be out of range *)
Fixpoint ch_queries (q : cquery) (source target : list nat) : option (list N) :=
  match source with
  | [] => Some []
  | s :: source => t ← target !! 0; '(x, q) ← ch_query q s t; xs ← ch_queries q source (drop 1 target); Some (x :: xs)
  end.
(** r:34-72 *)
Definition run_ch_queries (ch_file source_file target_file : list N) : option (result (list N)) :=
  andthen (load_ch ch_file) (fun o =>
  andthen (load_ids source_file) (fun source =>
  andthen (load_ids target_file) (fun target =>
  c ← ch_of_object o;
  distance ← ch_queries (new_cquery c) source target;
  _ ← print_average (length source);
  Some (Ret (save_words distance))))).

(** ** generate_dijkstra_rank_test_queries.cpp *)
(** A query: source, target, rank, distance. *)
Definition rank_query : Type := nat * nat * nat * N.
(** g:79-93; [n] nodes have been settled. Shifting by 32 or more is undefined. *)
Fixpoint rank_loop (fuel : nat) (w : nat -> N -> option N) (source_node : nat) (d : dijkstra) (r n : nat) (out : list rank_query) : option (dijkstra * list rank_query) :=
  match fuel with
  | O => None
  | S fuel =>
      if is_finished d then Some (d, out) else
      '((x, k), d) ← settle d w;
      _ ← chk (r <? 32);
      if S n =? 2 ^ r then
        rank_loop fuel w source_node d (S r) (S n) (if 5 <? r then out ++ [(source_node, x, r, k)] else out)
      else rank_loop fuel w source_node d r (S n) out
  end.
(** g:71-94; [sources] are the nodes drawn at random *)
Definition rank_queries (w : nat -> N -> option N) (d : dijkstra) (sources : list nat) : option (dijkstra * list rank_query) :=
  for_each sources (fun s st => let '(d, out) := st in
    d ← d_reset d; d ← add_source d s 0%N;
    rank_loop (S (node_count (d_graph d))) w s d 0 0 out) (d, []).
(** g:34-103. The random numbers are arguments; a graph without nodes gives the distribution an empty range. The
    number of weights is not checked. *)
Definition generate_rank_queries (sources : list nat) (first_out_file head_file weight_file : list N) : option (result (list N * list N * list N * list N)) :=
  andthen (load_ids first_out_file) (fun first_out =>
  andthen (load_ids head_file) (fun head =>
  andthen (load_words weight_file) (fun weight =>
  andthen (check_if_graph_is_valid first_out head) (fun _ =>
  tail ← invert_inverse_vector first_out;
  _ ← chk (negb (length first_out - 1 =? 0));
  '(_, out) ← rank_queries (scalar_weight weight) (new_dijkstra (mkGraph first_out tail head)) sources;
  Some (Ret (save_ids ((fun q => fst (fst (fst q))) <$> out), save_ids ((fun q => snd (fst (fst q))) <$> out),
             save_ids ((fun q => snd (fst q)) <$> out), save_words (snd <$> out))))))).
