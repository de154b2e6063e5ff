(** C58 and C59: the programs that compute distances. *)
From Verif Require Import Base ProtobufModel BitVectorModel VectorIoModel UtilSpec GraphSpec PathSpec PermutationModel DijkstraModel DijkstraProofs ChBuildModel ChApiSpec ChFileModel ChFileSpec Properties_ChFile VerifyModel VerifyProofs DistanceToolModel.
From Verif Require Import WalkSpec DistanceToolSpec DistanceToolProofs DistanceToolChProofs.
Ltac Zify.zify_post_hook ::= idtac.

(** * C58 *)
(** run_dijkstra writes the distances of all queries, if there are arcs and queries, the nodes of the queries are nodes
    of the graph and all distances stay below inf_weight. *)
Theorem C58_dijkstra_partial fo tail head w source target : stored_graph fo tail head w -> head <> [] -> stored_queries (length fo - 1) source target ->
  (forall s, s ∈ source -> distances_below tail head w s) ->
  exists dist, run_dijkstra (id_file fo) (id_file head) (word_file w) (id_file source) (id_file target) = Some (Ret (word_file dist)) /\ answers tail head w source target dist.
Proof. apply run_dijkstra_spec. Qed.
Print Assumptions C58_dijkstra_partial.
(** compute_contraction_hierarchy writes a file with which run_contraction_hierarchy_query does the same, if the weights of the
    hierarchy are at most inf_weight and its file has less than 2^32 numbers. *)
Theorem C58_hierarchy_partial asserts pad memory fo tail head w : length pad = 4 -> memory_ok memory -> stored_graph fo tail head w -> head <> [] ->
  (N.of_nat (length fo) + 1 < 2 ^ 32)%N -> hierarchy_fits (length fo - 1) tail head w ->
  exists file, compute_contraction_hierarchy asserts pad memory (id_file fo) (id_file head) (word_file w) = Some (Ret file) /\
    forall source target, stored_queries (length fo - 1) source target ->
    exists dist, run_ch_queries file (id_file source) (id_file target) = Some (Ret (word_file dist)) /\ answers tail head w source target dist.
Proof.
  intros Hp Hm Hg Hne Hn Hf. destruct (compute_ch_spec asserts pad memory fo tail head w Hp Hm Hg Hne Hn Hf) as (file & o & c & E & Hof & Hl & Ho).
  exists file. split; [done|]. intros source target Hq. by eapply run_ch_spec.
Qed.
Print Assumptions C58_hierarchy_partial.
(** The files written by the two programs are the same. *)
Theorem C58_agree_partial asserts pad memory fo tail head w source target : length pad = 4 -> memory_ok memory -> stored_graph fo tail head w -> head <> [] ->
  (N.of_nat (length fo) + 1 < 2 ^ 32)%N -> hierarchy_fits (length fo - 1) tail head w -> stored_queries (length fo - 1) source target -> (forall s, s ∈ source -> distances_below tail head w s) ->
  exists file out, compute_contraction_hierarchy asserts pad memory (id_file fo) (id_file head) (word_file w) = Some (Ret file) /\
    run_ch_queries file (id_file source) (id_file target) = Some (Ret out) /\ run_dijkstra (id_file fo) (id_file head) (word_file w) (id_file source) (id_file target) = Some (Ret out).
Proof.
  intros Hp Hm Hg Hne Hn Hf Hq Hb. destruct (C58_hierarchy_partial asserts pad memory fo tail head w Hp Hm Hg Hne Hn Hf) as (file & E & H). destruct (H _ _ Hq) as (d1 & E1 & A1).
  destruct (C58_dijkstra_partial fo tail head w source target Hg Hne Hq Hb) as (d2 & E2 & A2). exists file, (word_file d1). split; [done|]. split; [done|].
  rewrite (answers_unique _ _ _ _ _ _ _ (proj1 (proj2 Hq)) A1 A2). done.
Qed.
Print Assumptions C58_agree_partial.
(** Files that do not describe a graph with weights, or queries of different numbers, are refused. *)
Theorem C58_rejects fo head w source target : fo <> [] -> head <> [] -> Forall fits32 fo -> Forall fits32 head -> Forall (fun x => x < 2 ^ 32)%N w -> Forall fits32 source -> Forall fits32 target ->
  ~ csr (length fo - 1) fo head \/ length w <> length head \/ length source <> length target ->
  run_dijkstra (id_file fo) (id_file head) (word_file w) (id_file source) (id_file target) = Some Throw.
Proof.
  intros Hf Hh F1 F2 F3 F4 F5 H. unfold run_dijkstra. rewrite (load_id_file fo F1), (load_id_file head F2), (load_word_file w F3). cbn [andthen].
  destruct (check_graph_spec fo head Hf) as (r & E & Hr). destruct r as [[]|].
  - pose proof (proj1 Hr eq_refl) as Hc. destruct (tails_exist _ _ Hc) as (tail & _ & Ht). rewrite (check_graph_tool fo tail head w Hc Ht Hh). case_decide as Hw; [|done]. cbn [andthen].
    rewrite (load_id_file source F4), (load_id_file target F5). cbn [andthen]. rewrite throw_if_then. destruct (Nat.eqb_spec (length source) (length target)) as [Hl|Hl]; [|done].
    exfalso. tauto.
  - rewrite (check_graph_invalid fo head w Hf); [done|]. intros Hc. by apply Hr in Hc.
Qed.
Print Assumptions C58_rejects.
Theorem C58_hierarchy_rejects asserts pad memory fo head w : fo <> [] -> Forall fits32 fo -> Forall fits32 head -> Forall (fun x => x < 2 ^ 32)%N w ->
  ~ csr (length fo - 1) fo head \/ length w <> length head \/ head = [] ->
  compute_contraction_hierarchy asserts pad memory (id_file fo) (id_file head) (word_file w) = Some Throw.
Proof.
  intros Hf F1 F2 F3 H. unfold compute_contraction_hierarchy. rewrite (load_id_file fo F1), (load_id_file head F2), (load_word_file w F3). cbn [andthen].
  destruct (check_graph_spec fo head Hf) as (r & E & Hr). rewrite E. destruct r as [[]|]; [|done]. cbn [andthen]. rewrite throw_if_then.
  destruct (Nat.eqb_spec (length head) 0) as [E0|E0]; [done|]. assert (head <> []) as Hh by (intros ->; done). pose proof (proj1 Hr eq_refl) as Hc. destruct (tails_exist _ _ Hc) as (tail & _ & Ht).
  rewrite (check_graph_tool fo tail head w Hc Ht Hh). case_decide as Hw; [|done]. exfalso. tauto.
Qed.
Print Assumptions C58_hierarchy_rejects.

(** Four nodes and five arcs; the last query is from a node to itself. *)
Definition ex_fo : list nat := [0; 2; 3; 4; 5].
Definition ex_tail : list nat := [0; 0; 1; 2; 3].
Definition ex_head : list nat := [1; 2; 3; 1; 0].
Definition ex_w : list N := [5; 2; 1; 1; 7]%N.
Definition ex_source : list nat := [0; 3; 1].
Definition ex_target : list nat := [3; 1; 1].
Definition ex_memory (k : nat) : list N := replicate (u64_count k) 77%N.
Lemma ex_stored : stored_graph ex_fo ex_tail ex_head ex_w.
Proof.
  assert (csr 4 ex_fo ex_head) as Hc. { destruct (check_graph_spec ex_fo ex_head) as (r & E & H); [done|]. apply H. by injection E as <-. }
  split; [done| |done|done|done|by repeat constructor].
  destruct (tails_exist ex_fo ex_head Hc) as (tail & E & Ht). assert (invert_inverse_vector ex_fo = Some ex_tail) as E' by (vm_compute; reflexivity). rewrite E in E'. by injection E' as ->.
Qed.
Lemma ex_below s : s < 4 -> distances_below ex_tail ex_head ex_w s.
Proof.
  intros Hs p v Hp _. assert (v < 4) as Hv.
  { clear -Hp Hs. induction Hp as [|u e x p v Ht Hh _ IH]; [done|]. apply IH. do 5 (destruct e as [|e]; [cbn in Hh; simplify_eq; lia|]). done. }
  assert (exists a, forall b, b < 4 -> exists q, awalk ex_tail ex_head s a 0 /\ (total ex_w a <= 9)%N /\ awalk ex_tail ex_head 0 q b /\ (total ex_w q <= 4)%N) as (a & H).
  { assert (forall b, b < 4 -> exists q, awalk ex_tail ex_head 0 q b /\ (total ex_w q <= 4)%N) as Hq.
    { intros b Hb. destruct b as [|[|[|[|b]]]]; [exists []|exists [1;3]|exists [1]|exists [1;3;2]|lia]; (split; [|by vm_compute]); repeat (econstructor; [done|done|]); constructor. }
    destruct s as [|[|[|[|s]]]]; [exists []|exists [2;4]|exists [3;2;4]|exists [4]|lia]; intros b Hb; destruct (Hq b Hb) as (q & ? & ?); exists q; (split; [|split; [by vm_compute|done]]); repeat (econstructor; [done|done|]); constructor. }
  destruct (H v Hv) as (q & H1 & H2 & H3 & H4). exists (a ++ q). split; [apply awalk_app; by exists 0|]. rewrite total_app. unfold inf_weight. lia.
Qed.
Lemma ex_fits : hierarchy_fits 4 ex_tail ex_head ex_w.
Proof.
  intros [] c E; vm_compute in E; injection E as <-; unfold weights_below; cbn [ch_fwd ch_bwd cs_weight]; (split; [|split; [|by vm_compute]]); repeat (constructor; [by vm_compute|]); constructor.
Qed.
Example C58_ex : stored_graph ex_fo ex_tail ex_head ex_w /\ ex_head <> [] /\ stored_queries 4 ex_source ex_target /\ (forall s, s ∈ ex_source -> distances_below ex_tail ex_head ex_w s) /\
  memory_ok ex_memory /\ hierarchy_fits 4 ex_tail ex_head ex_w /\
  run_dijkstra (id_file ex_fo) (id_file ex_head) (word_file ex_w) (id_file ex_source) (id_file ex_target) = Some (Ret (word_file [4; 10; 0]%N)) /\
  (exists file, compute_contraction_hierarchy true [1; 2; 3; 4]%N ex_memory (id_file ex_fo) (id_file ex_head) (word_file ex_w) = Some (Ret file) /\ length file = 304 /\
     run_ch_queries file (id_file ex_source) (id_file ex_target) = Some (Ret (word_file [4; 10; 0]%N))).
Proof.
  split; [apply ex_stored|]. split; [done|]. split; [split; [done|]; split; [done|]; split; repeat constructor|]. split.
  { intros s Hs. apply ex_below. repeat (apply elem_of_cons in Hs as [-> |Hs]; [lia|]). by apply elem_of_nil in Hs. }
  split; [intros k; split; [apply replicate_length|]; apply Forall_replicate; done|]. split; [apply ex_fits|]. split; [vm_compute; reflexivity|].
  eexists. split; [vm_compute; reflexivity|]. split; vm_compute; reflexivity.
Qed.

(** What is missing. Without queries the program divides by zero when it prints the average running time, before it writes
    the file; both programs do. *)
Theorem C58_no_queries_refuted : exists fo tail head w, stored_graph fo tail head w /\ head <> [] /\
  run_dijkstra (id_file fo) (id_file head) (word_file w) (id_file []) (id_file []) = None /\
  exists file, compute_contraction_hierarchy true [0; 0; 0; 0]%N ex_memory (id_file fo) (id_file head) (word_file w) = Some (Ret file) /\ run_ch_queries file (id_file []) (id_file []) = None.
Proof.
  exists ex_fo, ex_tail, ex_head, ex_w. split; [apply ex_stored|]. split; [done|]. split; [vm_compute; reflexivity|]. eexists. split; vm_compute; reflexivity.
Qed.
Print Assumptions C58_no_queries_refuted.
(** In a graph without arcs the largest head is read although there is none; the other program refuses such a graph. *)
Theorem C58_no_arcs_refuted : exists fo source target, stored_graph fo [] [] [] /\ stored_queries (length fo - 1) source target /\
  run_dijkstra (id_file fo) (id_file []) (word_file []) (id_file source) (id_file target) = None.
Proof.
  exists [0; 0; 0], [0], [1]. split; [|split; [split; [done|]; split; [done|]; split; repeat constructor|vm_compute; reflexivity]].
  assert (csr 2 [0; 0; 0] []) as Hc. { destruct (check_graph_spec [0; 0; 0] []) as (r & E & H); [done|]. apply H. by injection E as <-. }
  split; [done| |done|done|done|constructor]. destruct (tails_exist [0; 0; 0] [] Hc) as (tail & E & Ht). assert (invert_inverse_vector [0; 0; 0] = Some []) as E' by (vm_compute; reflexivity). rewrite E in E'. by injection E' as ->.
Qed.
Print Assumptions C58_no_arcs_refuted.
(** The nodes of the queries are not compared with the number of nodes, and the query program does not compare the numbers of
    sources and targets. *)
Theorem C58_query_range_refuted : exists fo tail head w s t, stored_graph fo tail head w /\ head <> [] /\ t < length fo - 1 /\
  run_dijkstra (id_file fo) (id_file head) (word_file w) (id_file [s]) (id_file [t]) = None /\ run_dijkstra (id_file fo) (id_file head) (word_file w) (id_file [t]) (id_file [s]) = None /\
  exists file, compute_contraction_hierarchy true [0; 0; 0; 0]%N ex_memory (id_file fo) (id_file head) (word_file w) = Some (Ret file) /\
    run_ch_queries file (id_file [s]) (id_file [t]) = None /\ run_ch_queries file (id_file [t; t]) (id_file [t]) = None.
Proof.
  exists ex_fo, ex_tail, ex_head, ex_w, 4, 1. split; [apply ex_stored|]. split; [done|]. split; [cbn; lia|]. split; [vm_compute; reflexivity|]. split; [vm_compute; reflexivity|].
  eexists. split; [vm_compute; reflexivity|]. split; vm_compute; reflexivity.
Qed.
Print Assumptions C58_query_range_refuted.
(** If distances reach inf_weight, run_dijkstra writes numbers above inf_weight instead of inf_weight. *)
Theorem C58_large_distance_refuted : exists fo tail head w s t x, stored_graph fo tail head w /\ head <> [] /\ stored_queries (length fo - 1) [s] [t] /\
  run_dijkstra (id_file fo) (id_file head) (word_file w) (id_file [s]) (id_file [t]) = Some (Ret (word_file [x])) /\ (inf_weight < x)%N /\ ~ is_distance tail head w s t x.
Proof.
  exists [0; 1; 2; 2], [0; 1], [1; 2], [2147483646; 2147483646]%N, 0, 2, 4294967292%N. split; [|split; [done|split; [|split; [vm_compute; reflexivity|split; [done|]]]]].
  - assert (csr 3 [0; 1; 2; 2] [1; 2]) as Hc. { destruct (check_graph_spec [0; 1; 2; 2] [1; 2]) as (r & E & H); [done|]. apply H. by injection E as <-. }
    split; [done| |done|done|done|by repeat constructor]. destruct (tails_exist [0; 1; 2; 2] [1; 2] Hc) as (tail & E & Ht). assert (invert_inverse_vector [0; 1; 2; 2] = Some [0; 1]) as E' by (vm_compute; reflexivity). rewrite E in E'. by injection E' as ->.
  - split; [done|]. split; [done|]. split; repeat constructor.
  - intros [H _]. by vm_compute in H.
Qed.
Print Assumptions C58_large_distance_refuted.

(** * C59 *)
(** For all random numbers, generate_dijkstra_rank_test_queries writes for every source, in the order in which they were drawn, the
    nodes number 2^6, 2^7, ... in the order of their distances, with their ranks and distances. *)
Theorem C59_rank_queries_partial fo tail head w sources : stored_graph fo tail head w -> 1 < length fo -> (N.of_nat (length fo - 1) <= 2 ^ 31)%N ->
  Forall (fun s => s < length fo - 1 /\ distances_below tail head w s) sources ->
  exists qss, let out := concat qss in
    generate_rank_queries sources (id_file fo) (id_file head) (word_file w) =
      Some (Ret (id_file ((fun q => fst (fst (fst q))) <$> out), id_file ((fun q => snd (fst (fst q))) <$> out), id_file ((fun q => snd (fst q)) <$> out), word_file (snd <$> out))) /\
    Forall2 (fun s qs => exists ord, ranked tail head w s ord /\ rank_queries_of s ord qs) sources qss.
Proof.
  intros [Hc Ht Hw Hn Hm Hww] H1 H31 Hs. destruct (csr_fits _ _ Hc Hn Hm) as [F1 F2]. unfold generate_rank_queries.
  rewrite (load_id_file fo F1), (load_id_file head F2), (load_word_file w Hww). cbn [andthen]. rewrite (check_valid _ _ Hc). cbn [andthen].
  destruct (tails_exist _ _ Hc) as (tail' & -> & Ht'). rewrite bind_S, (tails_unique _ _ _ _ _ Hc Ht' Ht). destruct (Nat.eqb_spec (length fo - 1) 0) as [|_]; [lia|]. cbn [negb chk]. rewrite bind_S.
  destruct (rank_queries_spec fo tail head w Hc Ht Hw sources H31 Hs [] [] (new_dijkstra (mkGraph fo tail head))) as (d & qss & -> & Hq).
  { apply dinv_new; [exact Hc|apply weights_exist; exact Hw]. }
  rewrite bind_S. exists qss. split; [done|exact Hq].
Qed.
Print Assumptions C59_rank_queries_partial.
(** A path with 130 nodes: from node 0 there are queries of rank 6 and 7, from node 60 one of rank 6, from node 100 none. *)
Definition long_fo : list nat := seq 0 130 ++ [129].
Definition long_head : list nat := seq 1 129.
Definition long_w : list N := replicate 129 3%N.
Lemma long_csr : csr 130 long_fo long_head.
Proof. destruct (check_graph_spec long_fo long_head) as (r & E & H); [done|]. apply H. vm_compute in E. by injection E as <-. Qed.
Lemma long_stored : stored_graph long_fo (seq 0 129) long_head long_w.
Proof.
  split; [apply long_csr| |done|done|done|by apply Forall_replicate].
  destruct (tails_exist long_fo long_head long_csr) as (tail & E & Ht). assert (invert_inverse_vector long_fo = Some (seq 0 129)) as E' by (vm_compute; reflexivity). rewrite E in E'. by injection E' as ->.
Qed.
Lemma long_total p : Forall (fun e => e < 129) p -> total long_w p = (3 * N.of_nat (length p))%N.
Proof.
  induction p as [|e p IH]; [done|]. intros [He Hp]%Forall_cons. change (total long_w (e :: p)) with (default 0%N (long_w !! e) + total long_w p)%N. rewrite (IH Hp).
  unfold long_w. rewrite lookup_replicate_2 by done. cbn [default from_option length]. unfold id. lia.
Qed.
Lemma long_walk s p v : awalk (seq 0 129) long_head s p v -> p = seq s (length p) /\ v = s + length p /\ (p <> [] -> v <= 129).
Proof.
  induction 1 as [u|u e x p v Ht Hh _ (IH1 & IH2 & IH3)]; [split; [done|]; split; [cbn; lia|done]|].
  unfold long_head in Hh. apply lookup_seq in Ht as [-> Ht]. apply lookup_seq in Hh as [-> Hh]. cbn [length seq]. split; [|split].
  - change (0 + e) with e. by rewrite IH1 at 1.
  - lia.
  - intros _. destruct p; [cbn in IH2; lia|]. by apply IH3.
Qed.
Lemma long_below s : s < 130 -> distances_below (seq 0 129) long_head long_w s.
Proof.
  intros Hs p v Hp _. exists p. split; [done|]. destruct (long_walk s p v Hp) as (_ & H2 & H3).
  assert (Forall (fun e => e < 129) p) as Hf. { apply Forall_forall. intros e He. pose proof (awalk_valid _ _ _ _ _ _ Hp He) as Hlt. by rewrite seq_length in Hlt. }
  rewrite (long_total p Hf). destruct p as [|e p]; [done|]. specialize (H3 ltac:(done)). unfold inf_weight. lia.
Qed.
Example C59_ex : stored_graph long_fo (seq 0 129) long_head long_w /\ Forall (fun s => s < 130 /\ distances_below (seq 0 129) long_head long_w s) [0; 100; 60] /\
  generate_rank_queries [0; 100; 60] (id_file long_fo) (id_file long_head) (word_file long_w) =
    Some (Ret (id_file [0; 0; 60], id_file [63; 127; 123], id_file [6; 7; 6], word_file [189; 381; 189]%N)).
Proof.
  split; [apply long_stored|]. split; [repeat (constructor; [split; [lia|apply long_below; lia]|]); constructor|]. vm_compute. reflexivity.
Qed.
(** What is missing: a graph without nodes is not refused, and the number of weights is not checked. *)
Theorem C59_input_refuted : generate_rank_queries [] (id_file [0]) (id_file []) (word_file []) = None /\
  exists fo head w, csr (length fo - 1) fo head /\ length w <> length head /\ generate_rank_queries [0] (id_file fo) (id_file head) (word_file w) = None.
Proof.
  split; [vm_compute; reflexivity|]. exists [0; 1; 1], [1], []. split; [|split; [done|vm_compute; reflexivity]].
  destruct (check_graph_spec [0; 1; 1] [1]) as (r & E & H); [done|]. apply H. by injection E as <-.
Qed.
Print Assumptions C59_input_refuted.
