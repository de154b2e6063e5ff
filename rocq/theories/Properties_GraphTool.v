(** * C60 and C61: the programs that convert and permute graphs *)
From Verif Require Import Base UtilSpec GraphSpec PathSpec ProtobufModel PermutationModel SortModel SortProofs PermutationProofs VerifyModel VerifyProofs DistanceToolModel DistanceToolSpec DistanceToolProofs TextModel TextSpec TextProofs GraphToolModel GraphToolSpec
  GraphToolProofs GraphToolPermuteProofs WalkSpec.
From Coq Require String. Import String.StringSyntax.
Ltac Zify.zify_post_hook ::= idtac.

(** A file in the DIMACS format becomes three files that store exactly its arcs, sorted. *)
Theorem C60_convert n arcs file : dimacs_file n arcs file -> arcs_fit n arcs ->
  exists fo head w arcs', convert_road_dimacs_graph file = Some (Ret (id_file fo, id_file head, word_file w)) /\ stores n fo head w arcs' /\ arcs_sorted arcs arcs'.
Proof. apply convert_spec. Qed.
Print Assumptions C60_convert.
(** Whatever is in the file: if the program does not stop, the files store a graph with sorted heads. *)
Theorem C60_convert_graph file f1 f2 f3 : convert_road_dimacs_graph file = Some (Ret (f1, f2, f3)) ->
  exists fo tail head w, f1 = id_file fo /\ f2 = id_file head /\ f3 = word_file w /\ stored_graph fo tail head w /\ heads_sorted fo head.
Proof. apply convert_sound. Qed.
Print Assumptions C60_convert_graph.
(** The other program writes a file in the DIMACS format with the same arcs. *)
Theorem C60_export fo tail head w arcs : stored_graph fo tail head w -> head <> [] -> stores (length fo - 1) fo head w arcs ->
  exists file, export_road_dimacs_graph (id_file fo) (id_file head) (word_file w) = Some (Ret file) /\ dimacs_file (length fo - 1) arcs file.
Proof. apply export_spec. Qed.
Print Assumptions C60_export.
(** Both together give back the same files. *)
Theorem C60_round_trip fo tail head w : stored_graph fo tail head w -> head <> [] -> heads_sorted fo head ->
  exists file, export_road_dimacs_graph (id_file fo) (id_file head) (word_file w) = Some (Ret file) /\ convert_road_dimacs_graph file = Some (Ret (id_file fo, id_file head, word_file w)).
Proof. apply round_trip. Qed.
Print Assumptions C60_round_trip.

Definition ex_file : list N := text "c a comment
p  sp 3 4

a 3 1 10
a 1 3 007
c another one
a 1 2 4294967295 
a 1 3 5".
Definition ex_arcs : list (nat * nat * N) := [(2, 0, 10%N); (0, 2, 7%N); (0, 1, 4294967295%N); (0, 2, 5%N)].
Lemma numeral_of ds x : ds <> [] -> Forall (fun c => is_digit c = true) ds -> digits_value ds = x -> numeral ds x.
Proof.
  intros Hne Hf <-. induction ds as [|c ds IH] using rev_ind; [done|]. apply Forall_app in Hf as [Hf Hc]. apply Forall_cons in Hc as [Hc _]. apply is_digit_spec in Hc. rewrite digits_value_app.
  replace c with (48 + (c - 48))%N at 1 by lia. destruct ds as [|d ds]; [|apply numeral_more; [apply IH; done|lia]]. change (digits_value []) with 0%N. cbn [app]. apply numeral_digit. lia.
Qed.
Example C60_ex : dimacs_file 3 ex_arcs ex_file /\ arcs_fit 3 ex_arcs /\
  convert_road_dimacs_graph ex_file = Some (Ret (id_file [0; 3; 3; 4], id_file [1; 2; 2; 0], word_file [4294967295; 7; 5; 10]%N)) /\
  export_road_dimacs_graph (id_file [0; 3; 3; 4]) (id_file [1; 2; 2; 0]) (word_file [4294967295; 7; 5; 10]%N) = Some (Ret (text "p sp 3 4
a 1 2 4294967295
a 1 3 7
a 1 3 5
a 3 1 10
")).
Proof.
  split; [|split; [|split; vm_compute; reflexivity]].
  - assert (gap [32%N]) as G1 by (split; [done|]; repeat constructor). assert (gap [32%N; 32%N]) as G2 by (split; [done|]; repeat constructor). assert (blanks []) as B by constructor.
    exists [text "c a comment"], (text "p  sp 3 4"), [text ""; text "a 3 1 10"; text "a 1 3 007"; text "c another one"; text "a 1 2 4294967295 "; text "a 1 3 5"].
    split; [|split; [|split]].
    + split; [repeat constructor; vm_compute; set_solver by done|]. right. eexists (text "c a comment" :: text "p  sp 3 4" :: [text ""; text "a 3 1 10"; text "a 1 3 007"; text "c another one"; text "a 1 2 4294967295 "]), (text "a 1 3 5").
      split; [done|]. split; [done|]. vm_compute. reflexivity.
    + constructor; [right; by eexists|constructor].
    + exists [32; 32]%N, [32%N], [32%N], [], [51%N], [52%N]. split; [done|]. do 3 (split; [done|]). split; [done|]. split; apply numeral_of; first [done|by repeat constructor].
    + apply al_comment; [by left|]. apply al_arc. { exists [32%N], [32%N], [32%N], [], [51%N], [49%N], [49; 48]%N. split; [done|]. do 3 (split; [done|]). split; [done|]. split; [|split]; apply numeral_of; first [done|by repeat constructor]. }
      apply al_arc. { exists [32%N], [32%N], [32%N], [], [49%N], [51%N], [48; 48; 55]%N. split; [done|]. do 3 (split; [done|]). split; [done|]. split; [|split]; apply numeral_of; first [done|by repeat constructor]. }
      apply al_comment; [right; by eexists|]. apply al_arc. { exists [32%N], [32%N], [32%N], [32%N], [49%N], [50%N], [52; 50; 57; 52; 57; 54; 55; 50; 57; 53]%N. split; [done|]. do 3 (split; [done|]). split; [apply G1|]. split; [|split]; apply numeral_of; first [done|by repeat constructor]. }
      apply al_arc. { exists [32%N], [32%N], [32%N], [], [49%N], [51%N], [53%N]. split; [done|]. do 3 (split; [done|]). split; [done|]. split; [|split]; apply numeral_of; first [done|by repeat constructor]. }
      constructor.
  - split; [done|]. split; [done|]. repeat constructor.
Qed.
(** Files that are not in the format are not always refused: without a header two variables are read that have no value, negative numbers wrap
    around, and everything behind the third number is ignored. *)
Theorem C60_convert_refuted : convert_road_dimacs_graph (text "c nothing") = None /\
  convert_road_dimacs_graph (text "p sp 2 1
a -4294967295 2 -1") = Some (Ret (id_file [0; 1; 1], id_file [1], word_file [4294967295]%N)) /\
  convert_road_dimacs_graph (text "p sp 2 1.5
a 1 2 3.75 and more") = Some (Ret (id_file [0; 1; 1], id_file [1], word_file [3]%N)).
Proof. split; [|split]; vm_compute; reflexivity. Qed.
Print Assumptions C60_convert_refuted.
(** The exporting program uses first_out before it is checked, and never checks that it is sorted. *)
Theorem C60_export_refuted : (exists fo head w, ~ csr (length fo - 1) fo head /\ export_road_dimacs_graph (id_file fo) (id_file head) (word_file w) = None) /\
  (exists fo head w file, ~ csr (length fo - 1) fo head /\ export_road_dimacs_graph (id_file fo) (id_file head) (word_file w) = Some (Ret file)).
Proof.
  split.
  - exists [0; 2; 1], [0], [7%N]. split; [|vm_compute; reflexivity]. intros H. pose proof (csr_mono _ _ _ H 1 2 1 eq_refl eq_refl). lia.
  - exists [0; 2; 1; 2], [0; 0], [7; 8]%N. eexists. split; [|vm_compute; reflexivity]. intros H. pose proof (csr_mono _ _ _ H 1 2 1 eq_refl eq_refl). lia.
Qed.
Print Assumptions C60_export_refuted.

(** * C61 *)
(** For every permutation that is drawn, the new files store the same graph with permuted nodes and sorted heads; arcs keep all their weights. *)
Theorem C61_permute std_sort random fo tail head ws : sorts std_sort -> (forall n, perm (random n) /\ length (random n) = n) -> head <> [] ->
  csr (length fo - 1) fo head -> tails_ok fo tail head -> fits32 (length fo) -> fits32 (length head) -> Forall (fun w => length w = length head /\ Forall (fun x => x < 2 ^ 32)%N w) ws ->
  exists fo' tail' head' ws' r, randomly_permute_nodes std_sort random (id_file fo) (id_file head) (map word_file ws) = Some (Ret (id_file fo', id_file head', map word_file ws')) /\
    csr (length fo - 1) fo' head' /\ tails_ok fo' tail' head' /\ heads_sorted fo' head' /\
    perm r /\ length r = length head /\ renamed_arcs (random (length fo - 1)) r tail head tail' head' /\ Forall2 (permuted_by r) ws ws'.
Proof. apply permute_spec. Qed.
Print Assumptions C61_permute.
(** Thus all distances stay the same. *)
Theorem C61_distances std_sort random fo tail head w : sorts std_sort -> (forall n, perm (random n) /\ length (random n) = n) -> head <> [] -> stored_graph fo tail head w ->
  exists fo' tail' head' w', randomly_permute_nodes std_sort random (id_file fo) (id_file head) [word_file w] = Some (Ret (id_file fo', id_file head', [word_file w'])) /\
    forall s t s' t' x, random (length fo - 1) !! s = Some s' -> random (length fo - 1) !! t = Some t' -> is_distance tail head w s t x <-> is_distance tail' head' w' s' t' x.
Proof.
  intros Hs Hr Hne [Hc Ht Hw Fn Fm Hww]. destruct (permute_spec std_sort random fo tail head [w] Hs Hr Hne Hc Ht Fn Fm) as (fo' & tail' & head' & ws' & r & E & Hc' & _ & _ & Hp & Lr & Hren & Hws); [by repeat constructor|].
  inversion Hws as [|? w' ? ws0 Hw' Hnil]; subst. inversion Hnil; subst. exists fo', tail', head', w'. split; [exact E|]. intros s t s' t' x Es Et. pose proof (proj1 Ht) as Lt.
  exact (renamed_distance (random (length fo - 1)) r tail head tail' head' w w' (length fo - 1) (proj1 (Hr _)) (proj2 (Hr _)) Hp Lr Lt Hw Hren Hw' s t s' t' x Es Et).
Qed.
Print Assumptions C61_distances.
(** An example for both; the sort of the standard library is a stable one here. *)
Lemma stable_sorts : sorts std_stable_sort.
Proof. intros v. apply ssp_sp. apply (comparator_sort_permutation_correct id v). Qed.
Definition ex_random (n : nat) : list nat := if decide (n = 3) then [2; 0; 1] else seq 0 n.
Lemma ex_random_perm n : perm (ex_random n) /\ length (ex_random n) = n.
Proof.
  unfold ex_random. destruct (decide (n = 3)) as [->|]; [|split; [apply perm_seq|apply seq_length]]. split; [|done]. apply NoDup_bounded_perm; [repeat constructor; set_solver|]. intros x. cbn. set_unfold. lia.
Qed.
Example C61_ex : sorts std_stable_sort /\ (forall n, perm (ex_random n) /\ length (ex_random n) = n) /\ csr 3 [0; 3; 3; 4] [1; 2; 2; 0] /\
  randomly_permute_nodes std_stable_sort ex_random (id_file [0; 3; 3; 4]) (id_file [1; 2; 2; 0]) [word_file [9; 7; 5; 10]; word_file [1; 2; 3; 4]]%N =
    Some (Ret (id_file [0; 0; 1; 4], id_file [2; 0; 1; 1], [word_file [10; 9; 7; 5]; word_file [4; 1; 2; 3]]%N)).
Proof.
  split; [apply stable_sorts|]. split; [apply ex_random_perm|]. split; [|vm_compute; reflexivity].
  destruct (check_graph_spec [0; 3; 3; 4] [1; 2; 2; 0]) as (r & E & H); [done|]. apply H. by injection E as <-.
Qed.
(** That first_out is sorted is not checked: such files lead to writing out of range, or to files of another graph. *)
Theorem C61_unsorted_refuted : (exists fo head w, ~ csr (length fo - 1) fo head /\ randomly_permute_nodes std_stable_sort (fun n => seq 0 n) (id_file fo) (id_file head) [word_file w] = None) /\
  exists fo head w files, ~ csr (length fo - 1) fo head /\ randomly_permute_nodes std_stable_sort (fun n => seq 0 n) (id_file fo) (id_file head) [word_file w] = Some (Ret files).
Proof.
  split.
  - exists [0; 2; 1], [0], [7%N]. split; [|vm_compute; reflexivity]. intros H. pose proof (csr_mono _ _ _ H 1 2 1 eq_refl eq_refl). lia.
  - exists [0; 2; 1; 2], [0; 0], [7; 8]%N. eexists. split; [|vm_compute; reflexivity]. intros H. pose proof (csr_mono _ _ _ H 1 2 1 eq_refl eq_refl). lia.
Qed.
Print Assumptions C61_unsorted_refuted.
