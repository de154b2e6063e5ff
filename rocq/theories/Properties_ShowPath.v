(** C77: the programs show_path and examine_ch. *)
From Verif Require Import Base ProtobufModel VectorIoModel VectorIoProofs Properties_VectorIo GraphSpec PathSpec ChBuildModel ChSpec ChQueryModel ChApiSpec ChApiProofs ChFileModel ChFileSpec DistanceToolModel DistanceToolSpec DistanceToolProofs DistanceToolChProofs
  TextModel TextSpec TextProofs CoordToolSpec ShowPathModel ShowPathProofs.
From Verif Require Import Properties_DistanceTool.
From Coq Require String. Import String.StringSyntax.
From Verif Require Import ShowPathSpec WalkSpec.
Ltac Zify.zify_post_hook ::= idtac.

(** The program loads what compute_contraction_hierarchy wrote, and positions. For every input, which starts with some queries: if all of them ask for nodes of
    the graph, it prints a document with a shortest route for each of them. If one does not, it prints the documents up to there and stops, except that
    it does not notice the first number that is not a node, see below. *)
Theorem C77_show_partial : forall F (encode : F -> list N) value ok show asserts pad memory fo tail head w latitude longitude,
  image 4 encode value ok -> Forall ok latitude -> Forall ok longitude ->
  length pad = 4 -> memory_ok memory -> stored_graph fo tail head w -> head <> [] -> (N.of_nat (length fo) + 1 < 2 ^ 32)%N -> hierarchy_fits (length fo - 1) tail head w ->
  length fo - 1 <= length latitude -> length fo - 1 <= length longitude ->
  exists file, compute_contraction_hierarchy asserts pad memory (id_file fo) (id_file head) (word_file w) = Some (Ret file) /\
    forall input, exists qs, queries_of input qs /\
      let program := show_path value show file (concat (encode <$> latitude)) (concat (encode <$> longitude)) input in
      let n := N.of_nat (length fo - 1) in
      let inside st := (fst st < n /\ snd st < n)%N in
      let route st doc := shows show latitude longitude tail head w (N.to_nat (fst st)) (N.to_nat (snd st)) doc in
      (Forall inside qs -> exists docs, program = Some (concat docs, false) /\ Forall2 route qs docs) /\
      (forall good s t more, qs = good ++ (s, t) :: more -> Forall inside good ->
         ((n < s \/ n < t)%N -> exists docs, program = Some (concat docs, true) /\ Forall2 route good docs) /\
         ((s <= n /\ t <= n)%N -> ~ inside (s, t) -> program = None)).
Proof.
  intros F encode value ok show asserts pad memory fo tail head w latitude longitude Hi H1 H2 Hp Hm Hst Hne Hn Hfit L1 L2.
  destruct (compute_ch_spec asserts pad memory fo tail head w Hp Hm Hst Hne Hn Hfit) as (file & o & c & E & Hof & Hl & Ho).
  exists file. split; [done|]. intros input. destruct (queries_exist input) as (qs & Hq). exists qs. split; [done|]. cbv zeta.
  assert (show_path value show file (concat (encode <$> latitude)) (concat (encode <$> longitude)) input =
    show_loop show (length input + 1) (N.of_nat (length fo - 1)) latitude longitude (new_cquery c) input []) as ->.
  { unfold show_path. rewrite Hl. cbn [andthen]. pose proof (C40_vector 4 encode value ok latitude Hi H1) as E1. pose proof (C40_vector 4 encode value ok longitude Hi H2) as E2.
    unfold save_vector in E1, E2. rewrite E1, E2. cbn [andthen]. rewrite (object_read _ _ Ho), bind_S. destruct Ho as (-> & _). f_equal. f_equal. by apply (Properties_ChQuery.of_nodes _ _ _ _ _ Hof). }
  split.
  - intros Hw. by apply (loop_all show latitude longitude (length fo - 1) tail head w c Hof L1 L2 input qs _ Hq (reached_new c)).
  - intros good s t more -> Hw. destruct (loop_outside show latitude longitude (length fo - 1) tail head w c Hof L1 L2 input good s t more _ Hq (reached_new c) Hw) as (docs & Hd & Hx & Hy).
    split; [|done]. intros Hst'. exists docs. by split; [apply Hx|].
Qed.
Print Assumptions C77_show_partial.
(** An input has only one list of queries. *)
Theorem C77_input : forall input qs qs', queries_of input qs -> queries_of input qs' -> qs = qs'.
Proof. exact queries_unique. Qed.
Print Assumptions C77_input.
(** The other program prints the numbers of nodes and arcs of a hierarchy that compute_contraction_hierarchy wrote. *)
Theorem C77_examine : forall asserts pad memory fo tail head w,
  length pad = 4 -> memory_ok memory -> stored_graph fo tail head w -> head <> [] -> (N.of_nat (length fo) + 1 < 2 ^ 32)%N -> hierarchy_fits (length fo - 1) tail head w ->
  exists file c a b d, compute_contraction_hierarchy asserts pad memory (id_file fo) (id_file head) (word_file w) = Some (Ret file) /\
    ch_of (length fo - 1) tail head w c /\
    examine_ch file = Some (txt "node_count : " ++ a ++ [10%N] ++ txt "forward_ch_arc_count : " ++ b ++ [10%N] ++ txt "backward_ch_arc_count : " ++ d ++ [10%N], false) /\
    numeral a (N.of_nat (length fo - 1)) /\
    ((N.of_nat (length (cs_head (ch_fwd c))) < 2 ^ 64)%N -> numeral b (N.of_nat (length (cs_head (ch_fwd c))))) /\
    ((N.of_nat (length (cs_head (ch_bwd c))) < 2 ^ 64)%N -> numeral d (N.of_nat (length (cs_head (ch_bwd c))))).
Proof.
  intros asserts pad memory fo tail head w Hp Hm Hst Hne Hn Hfit.
  destruct (compute_ch_spec asserts pad memory fo tail head w Hp Hm Hst Hne Hn Hfit) as (file & o & c & E & Hof & Hl & Ho). destruct Ho as (Er & _ & (_ & Ef & _) & (_ & Eb & _)).
  exists file, c, (print_unsigned (N.of_nat (length fo - 1))), (print_unsigned (N.of_nat (length (cs_head (ch_fwd c))))), (print_unsigned (N.of_nat (length (cs_head (ch_bwd c))))).
  split; [done|]. split; [done|]. split.
  - unfold examine_ch. rewrite Hl, Er, Ef, Eb. assert (length (ch_rank c) = length fo - 1) as -> by (by apply (Properties_ChQuery.of_nodes _ _ _ _ _ Hof)).
    unfold line_of, txt. f_equal. f_equal. cbn [replicate]. rewrite !app_nil_l, <- !app_assoc. done.
  - split; [apply print_unsigned_spec; change (2 ^ 32)%N with 4294967296%N in Hn; change (2 ^ 64)%N with 18446744073709551616%N; lia|]. split; apply print_unsigned_spec.
Qed.
Print Assumptions C77_examine.

(** The graph of C58 with positions, which are numbers below 2^32 here; the input ends with something that is no query. *)
Definition ex_latitude : list N := [49; 50; 51; 52]%N.
Definition ex_longitude : list N := [8; 9; 10; 11]%N.
Definition ex_ch : list N := match compute_contraction_hierarchy true [1; 2; 3; 4]%N ex_memory (id_file ex_fo) (id_file ex_head) (word_file ex_w) with Some (Ret file) => file | _ => [] end.
Definition ex_show (input : list N) : option (list N * bool) := show_path le_word print_unsigned ex_ch (concat (le_bytes 4 <$> ex_latitude)) (concat (le_bytes 4 <$> ex_longitude)) input.
Definition ex_document (a b d : list N) (ps : list (list N)) : list N := indented (kml a b d ps).
Definition ex_docs : list (list N) :=
  [ex_document (txt "8,49,0") (txt "11,52,0") (txt "4") [txt "8,49,0"; txt "10,51,0"; txt "9,50,0"; txt "11,52,0"]; ex_document (txt "9,50,0") (txt "9,50,0") (txt "0") [txt "9,50,0"]].
Example C77_ex : image 4 (le_bytes 4) le_word (fun x => x < 2 ^ 32)%N /\ Forall (fun x => x < 2 ^ 32)%N ex_latitude /\ Forall (fun x => x < 2 ^ 32)%N ex_longitude /\
  memory_ok ex_memory /\ stored_graph ex_fo ex_tail ex_head ex_w /\ ex_head <> [] /\ hierarchy_fits 4 ex_tail ex_head ex_w /\
  compute_contraction_hierarchy true [1; 2; 3; 4]%N ex_memory (id_file ex_fo) (id_file ex_head) (word_file ex_w) = Some (Ret ex_ch) /\
  queries_of (text "0 3  1 +1 2 x") [(0, 3); (1, 1)]%N /\
  ex_show (text "0 3  1 +1 2 x") = Some (concat ex_docs, false) /\
  ex_show (text "0 3 1 1 1 5 0 0") = Some (concat ex_docs, true) /\
  examine_ch ex_ch = Some (text "node_count : 4" ++ [10%N] ++ text "forward_ch_arc_count : 3" ++ [10%N] ++ text "backward_ch_arc_count : 3" ++ [10%N], false).
Proof.
  split; [apply (C40_unsigned 4); lia|]. split; [by repeat constructor|]. split; [by repeat constructor|]. split; [intros k; split; [apply replicate_length|]; apply Forall_replicate; done|].
  split; [apply ex_stored|]. split; [done|]. split; [apply ex_fits|]. split; [vm_compute; reflexivity|]. split.
  { exists (text " 2 x"). split.
    - apply (qt_cons _ _ _ _ (text " 3  1 +1 2 x") (text "  1 +1 2 x")); [apply read_word_number; vm_compute; reflexivity|apply read_word_number; vm_compute; reflexivity|].
      apply (qt_cons _ _ _ _ (text " +1 2 x") (text " 2 x")); [apply read_word_number; vm_compute; reflexivity|apply read_word_number; vm_compute; reflexivity|]. constructor.
    - intros (s & t & l1 & l2 & H1%read_word_number & H2%read_word_number). vm_compute in H1. injection H1 as <- <-. vm_compute in H2. done. }
  split; [vm_compute; reflexivity|]. split; vm_compute; reflexivity.
Qed.
(** Files that cannot be read end both programs before anything is printed. *)
Theorem C77_refuses : forall F (value : list N -> F) show ch_file latitude_file longitude_file input,
  (load_ch ch_file = Some Throw -> show_path value show ch_file latitude_file longitude_file input = Some ([], true) /\ examine_ch ch_file = Some ([], true)) /\
  (forall o, load_ch ch_file = Some (Ret o) -> length latitude_file mod 4 <> 0 \/ length longitude_file mod 4 <> 0 ->
     show_path value show ch_file latitude_file longitude_file input = Some ([], true)).
Proof.
  intros F value show cf la lo input. unfold show_path, examine_ch. split; [by intros ->|]. intros o -> H. cbn [andthen]. unfold load_vector.
  destruct (decide (length la mod 4 <> 0)); [done|]. cbn [andthen]. destruct (decide (length lo mod 4 <> 0)); [done|]. by destruct H.
Qed.
Print Assumptions C77_refuses.
Example C77_refuses_ex : load_ch [] = Some Throw /\ (exists o, load_ch ex_ch = Some (Ret o)) /\ length (removelast (concat (le_bytes 4 <$> ex_latitude))) mod 4 <> 0.
Proof.
  split; [vm_compute; reflexivity|]. split; [|vm_compute; discriminate]. destruct (load_ch ex_ch) as [[o|]|] eqn:E; [by exists o|vm_compute in E; discriminate|vm_compute in E; discriminate].
Qed.
(** What is missing. The check of the ids is off by one: a query with the number of nodes as its source or target is not refused, but reads outside of an
    array. Nothing is checked about the number of positions. *)
Theorem C77_bounds_refuted : stored_graph ex_fo ex_tail ex_head ex_w /\ length ex_fo - 1 = 4 /\
  ex_show (text "4 0") = None /\ ex_show (text "0 4") = None /\ ex_show (text "5 0") = Some ([], true) /\
  show_path le_word print_unsigned ex_ch (concat (le_bytes 4 <$> take 3 ex_latitude)) (concat (le_bytes 4 <$> ex_longitude)) (text "0 3") = None.
Proof. split; [apply ex_stored|]. split; [done|]. repeat (split; [vm_compute; reflexivity|]). vm_compute; reflexivity. Qed.
Print Assumptions C77_bounds_refuted.
(** A query that does not fit, or that is not a number, ends the program without a word. *)
Theorem C77_silent_refuted : ex_show (text "0 4294967296 1 1") = Some ([], false) /\ ex_show (text "a b 1 1") = Some ([], false).
Proof. split; vm_compute; reflexivity. Qed.
Print Assumptions C77_silent_refuted.
