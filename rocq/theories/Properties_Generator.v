(** C76: the programs that generate files. *)
From Coq Require String. Import String.StringSyntax.
From Verif Require Import Base GraphSpec PathSpec ProtobufModel VectorIoModel TextModel TextSpec VectorToolModel VectorToolSpec VectorToolProofs DistanceToolModel DistanceToolSpec DistanceToolProofs Properties_VectorIo Properties_DistanceTool GeneratorModel GeneratorSpec.
Ltac Zify.zify_post_hook ::= idtac.

Lemma mod_64_32 x : ((x mod 2 ^ 64) mod 2 ^ 32 = x mod 2 ^ 32)%Z.
Proof. symmetry. apply Znumtheory.Zmod_div_mod; [done|done|]. by exists (2 ^ 32)%Z. Qed.
Lemma stoul_spec arg n : stoul arg = Ret n <-> given arg n.
Proof.
  unfold stoul, stoull, given. split.
  - destruct (read_number arg) as [[neg v]|] eqn:E; [|done]. apply read_number_some in E. unfold signed_value in E. cbn [fst snd] in E. destruct (N.ltb_spec v (2 ^ 64)) as [Hv|]; [|done]. intros [= <-].
    eexists. split; [exact E|]. split.
    + change (2 ^ 64)%N with 18446744073709551616%N in Hv. change (2 ^ 64)%Z with 18446744073709551616%Z. destruct neg; lia.
    + rewrite Z2N.id by (apply Z.mod_pos_bound; done). destruct neg; [|done]. apply mod_64_32.
  - intros (x & (p & E & Hp)%line_number_read & Hx & Hn). destruct p as [neg v]. unfold signed_value in Hp. cbn [fst snd] in Hp. rewrite E.
    destruct (N.ltb_spec v (2 ^ 64)) as [Hv|Hv].
    + f_equal. apply N2Z.inj. rewrite Z2N.id by (apply Z.mod_pos_bound; done). rewrite Hn, <- Hp. destruct neg; [|done]. apply mod_64_32.
    + change (2 ^ 64)%N with 18446744073709551616%N in Hv. change (2 ^ 64)%Z with 18446744073709551616%Z in Hx. destruct neg; lia.
Qed.
Lemma given_unique arg n m : given arg n -> given arg m -> n = m.
Proof. rewrite <- !stoul_spec. congruence. Qed.
Lemma given_word arg n : given arg n -> (n < 2 ^ 32)%N.
Proof. intros (x & _ & _ & Hn). pose proof (Z.mod_pos_bound x (2 ^ 32) ltac:(done)) as H. change (2 ^ 32)%N with 4294967296%N. change (2 ^ 32)%Z with 4294967296%Z in H. lia. Qed.
Lemma given_numeral arg n : numeral arg n -> (n < 2 ^ 32)%N -> given arg n.
Proof.
  intros Ha Hn. change (2 ^ 32)%N with 4294967296%N in Hn. exists (Z.of_N n). split; [|split].
  - exists [], arg, []. rewrite app_nil_r. split; [done|]. split; [constructor|]. split; [by constructor|done].
  - change (2 ^ 64)%Z with 18446744073709551616%Z. lia.
  - symmetry. apply Z.mod_small. change (2 ^ 32)%Z with 4294967296%Z. lia.
Qed.
Lemma stoul_throw arg : stoul arg = Throw <-> forall n, ~ given arg n.
Proof.
  split; [intros E n Hn%stoul_spec; congruence|]. intros H. destruct (stoul arg) as [n|] eqn:E; [|done]. by apply stoul_spec, H in E.
Qed.
Lemma save_numbers_ids l : save_numbers (N.of_nat <$> l) = id_file l.
Proof. unfold save_numbers, save_vector, id_file. by rewrite <- list_fmap_compose. Qed.
Lemma distribution_spec n : (n < 2 ^ 32)%N -> distribution n = if decide (0 < n <= 2 ^ 31)%N then Some (n - 1)%N else None.
Proof.
  unfold distribution. intros Hn. change (2 ^ 31)%N with 2147483648%N. change (2 ^ 32)%N with 4294967296%N in *. destruct (decide (n = 0%N)) as [-> |Hz].
  - by vm_compute.
  - replace (n + (4294967296 - 1))%N with (n - 1 + 1 * 4294967296)%N by lia. rewrite N.mod_add by done. rewrite N.mod_small by lia. destruct (N.ltb_spec (n - 1) 2147483648); case_decide; (done || lia).
Qed.
Lemma draw_all_spec {G} (draw : G -> N -> N * G) b k g : draws_in_range draw -> length (fst (draw_all draw b k g)) = k /\ Forall (fun x => x <= b)%N (fst (draw_all draw b k g)).
Proof.
  intros Hd. revert g. induction k as [|k IH]; intros g; cbn [draw_all]; [split; [reflexivity|constructor]|]. pose proof (Hd g b) as H. destruct (draw g b) as [x g1]. specialize (IH g1). destruct (draw_all draw b k g1) as [v g2]. cbn in *. split; [lia|]. constructor; [done|apply IH].
Qed.
Lemma draw_queries_spec {G} (draw : G -> N -> N * G) b k g s t g' : draws_in_range draw -> draw_queries draw b k g = (s, t, g') -> length s = k /\ length t = k /\ Forall (fun x => x <= b)%N s /\ Forall (fun x => x <= b)%N t.
Proof.
  intros Hd. revert g s t. induction k as [|k IH]; intros g s t; cbn [draw_queries]; [intros [= <- <- _]; split_and!; constructor|]. pose proof (Hd g b) as H. destruct (draw g b) as [x g1]. pose proof (Hd g1 b) as H'. destruct (draw g1 b) as [y g2].
  destruct (draw_queries draw b k g2) as [[s' t'] g3] eqn:E. intros [= <- <- <-]. destruct (IH _ _ _ E) as (H1 & H2 & H3 & H4). cbn in *. split_and!; [lia|lia|by constructor|by constructor].
Qed.
Lemma numbers_ids l n : Forall (fun x => x <= n - 1)%N l -> (0 < n)%N -> exists ids, l = N.of_nat <$> ids /\ Forall (fun x => x < N.to_nat n) ids.
Proof.
  intros H Hn. exists (N.to_nat <$> l). split.
  - rewrite <- list_fmap_compose. rewrite <- (list_fmap_id l) at 1. apply list_fmap_ext. intros i x _. symmetry. apply N2Nat.id.
  - apply Forall_fmap. eapply Forall_impl; [exact H|]. intros x Hx. change (N.to_nat x < N.to_nat n). cbv beta in Hx. lia.
Qed.

(** The constant vector, for all arguments *)
Theorem C76_constant : forall size value file, generate_constant_vector size value = Ret file <-> exists n x, given size n /\ given value x /\ file = word_file (replicate (N.to_nat n) x).
Proof.
  intros size value file. unfold generate_constant_vector. split.
  - destruct (stoul size) as [n|] eqn:E1; [|done]. destruct (stoul value) as [x|] eqn:E2; [|done]. intros [= <-]. apply stoul_spec in E1, E2. by exists n, x.
  - intros (n & x & E1%stoul_spec & E2%stoul_spec & ->). by rewrite E1, E2.
Qed.
Print Assumptions C76_constant.
(** The queries, for all arguments: they are within a graph with as many nodes. Partial: with no nodes, or more than 2^31, the behaviour is undefined. *)
Theorem C76_queries_partial : forall G seed (draw : G -> N -> N * G) node_count query_count random_seed, draws_in_range draw ->
  (forall n k r, given node_count n -> given query_count k -> given random_seed r ->
    ((0 < n <= 2 ^ 31)%N -> exists source target, generate_test_queries seed draw node_count query_count random_seed = Some (Ret (id_file source, id_file target)) /\
       length source = N.to_nat k /\ length target = N.to_nat k /\ Forall (fun x => x < N.to_nat n) source /\ Forall (fun x => x < N.to_nat n) target) /\
    (~ (0 < n <= 2 ^ 31)%N -> generate_test_queries seed draw node_count query_count random_seed = None)) /\
  (~ (exists n k r, given node_count n /\ given query_count k /\ given random_seed r) -> generate_test_queries seed draw node_count query_count random_seed = Some Throw).
Proof.
  intros G seed draw node_count query_count random_seed Hd. unfold generate_test_queries. split.
  - intros n k r H1 H2 H3. pose proof (given_word _ _ H1) as Hw. apply stoul_spec in H1, H2, H3. rewrite H1, H2, H3, (distribution_spec n Hw). split; intros Hn; [rewrite decide_True by done|by rewrite decide_False by done]. rewrite bind_S.
    destruct (draw_queries draw (n - 1) (N.to_nat k) (seed r)) as [[s t] g] eqn:E. destruct (draw_queries_spec _ _ _ _ _ _ _ Hd E) as (L1 & L2 & F1 & F2).
    destruct (numbers_ids _ _ F1) as (s' & -> & F1'); [lia|]. destruct (numbers_ids _ _ F2) as (t' & -> & F2'); [lia|]. rewrite fmap_length in L1, L2. exists s', t'. by rewrite !save_numbers_ids.
  - intros H. destruct (stoul node_count) eqn:E1; [|done]. destruct (stoul query_count) eqn:E2; [|done]. destruct (stoul random_seed) eqn:E3; [|done]. exfalso. apply H. apply stoul_spec in E1, E2, E3. eauto 6.
Qed.
Print Assumptions C76_queries_partial.
(** A number or a vector of that size *)
Definition number_or_vector (open : list N -> option (list N)) (arg : list N) (n : N) : Prop :=
  given arg n \/ (forall m, ~ given arg m) /\ exists v, open arg = Some (word_file v) /\ Forall (fun x => x < 2 ^ 32)%N v /\ n = (N.of_nat (length v) mod 2 ^ 32)%N.
Lemma number_or_size_spec open arg n : number_or_vector open arg n -> number_or_size open arg = Ret n /\ (n < 2 ^ 32)%N.
Proof.
  intros [H|[Hno (v & E & Hv & ->)]]; unfold number_or_size.
  - pose proof (given_word _ _ H). apply stoul_spec in H. by rewrite H.
  - apply stoul_throw in Hno. rewrite Hno, E. pose proof (load_word_file v Hv) as L. unfold load_words in L. injection L as ->. split; [done|]. by apply N.mod_lt.
Qed.
Theorem C76_nodes_partial : forall G seed (draw : G -> N -> N * G) open node_count query_count random_seed n k r, draws_in_range draw ->
  number_or_vector open node_count n -> given query_count k -> given random_seed r ->
  ((0 < n <= 2 ^ 31)%N -> exists nodes, generate_random_node_list seed draw open node_count query_count random_seed = Some (Ret (id_file nodes)) /\ length nodes = N.to_nat k /\ Forall (fun x => x < N.to_nat n) nodes) /\
  (~ (0 < n <= 2 ^ 31)%N -> generate_random_node_list seed draw open node_count query_count random_seed = None).
Proof.
  intros G seed draw open nc qc rs n k r Hd (E1 & Hw)%number_or_size_spec E2%stoul_spec E3%stoul_spec. unfold generate_random_node_list. rewrite E1, E2, E3, (distribution_spec n Hw).
  split; intros Hn; [rewrite decide_True by done|by rewrite decide_False by done]. rewrite bind_S. destruct (draw_all_spec draw (n - 1) (N.to_nat k) (seed r) Hd) as [L F].
  destruct (numbers_ids _ _ F) as (l & El & Fl); [lia|]. rewrite El in *. rewrite fmap_length in L. exists l. by rewrite save_numbers_ids.
Qed.
Print Assumptions C76_nodes_partial.
Theorem C76_times_partial : forall G seed (draw : G -> N -> N * G) open time_count random_seed period_file k r p, draws_in_range draw ->
  number_or_vector open time_count k -> given random_seed r -> open period_file = Some (le_bytes 4 p) -> (p < 2 ^ 32)%N ->
  ((0 < p <= 2 ^ 31)%N -> exists times, generate_random_source_times seed draw open time_count random_seed period_file = Some (Ret (word_file times)) /\ length times = N.to_nat k /\ Forall (fun x => x < p)%N times) /\
  (~ (0 < p <= 2 ^ 31)%N -> generate_random_source_times seed draw open time_count random_seed period_file = None).
Proof.
  intros G seed draw open tc rs pf k r p Hd (E1 & Hw)%number_or_size_spec E2%stoul_spec E3 Hp. unfold generate_random_source_times. rewrite E1, E2.
  assert (load_period open pf = Ret p) as ->.
  { unfold load_period, load_value. rewrite E3. assert (load_vector 4 le_word (le_bytes 4 p) = Ret [p]) as ->; [|done]. rewrite <- (app_nil_r (le_bytes 4 p)).
    pose proof (load_word_file [p] ltac:(by constructor)) as L. unfold load_words in L. change (word_file [p]) with (le_bytes 4 p ++ []) in L. congruence. }
  rewrite (distribution_spec p Hp). split; intros Hn; [rewrite decide_True by done|by rewrite decide_False by done]. rewrite bind_S. destruct (draw_all_spec draw (p - 1) (N.to_nat k) (seed r) Hd) as [L F].
  eexists. split; [reflexivity|]. split; [done|]. eapply Forall_impl; [exact F|]. cbn. intros x Hx. lia.
Qed.
Print Assumptions C76_times_partial.
(** Both programs end with an exception exactly if one of their arguments is not usable: not a number, and where a vector may be given, not the name of a file with words either. *)
Definition unusable (open : list N -> option (list N)) (arg : list N) : Prop :=
  (forall n, ~ given arg n) /\ match open arg with None => True | Some file => length file mod 4 <> 0 end.
Lemma number_or_size_throw open arg : number_or_size open arg = Throw <-> unusable open arg.
Proof.
  unfold number_or_size, unusable. destruct (stoul arg) as [n|] eqn:E.
  - split; [done|]. intros [H _]. exfalso. by apply (H n), stoul_spec.
  - pose proof (proj1 (stoul_throw arg) E) as Hno. destruct (open arg) as [file|]; [|split; [by intros _|done]]. unfold load_vector. case_decide as Hd; split; try done. by intros [_ ?].
Qed.
Lemma load_period_throw open name : load_period open name = Throw <-> match open name with None => True | Some file => length file <> 4 end.
Proof.
  unfold load_period, load_value, load_vector. destruct (open name) as [file|]; [|done]. case_decide as Hd.
  - split; [|done]. intros _ H. by rewrite H in Hd.
  - pose proof (Nat.div_mod (length file) 4 ltac:(lia)) as E. assert (length file mod 4 = 0) as Hz by lia. rewrite Hz in E.
    destruct (length file / 4) as [|[|q]] eqn:Eq; cbn [groups fmap list_fmap]; split; try done; intros H; lia.
Qed.
Theorem C76_refuses : forall G seed (draw : G -> N -> N * G) open count query_count random_seed period_file,
  (generate_random_node_list seed draw open count query_count random_seed = Some Throw <->
    unusable open count \/ (forall k, ~ given query_count k) \/ (forall r, ~ given random_seed r)) /\
  (generate_random_source_times seed draw open count random_seed period_file = Some Throw <->
    unusable open count \/ (forall r, ~ given random_seed r) \/ match open period_file with None => True | Some file => length file <> 4 end).
Proof.
  intros G seed draw open c qc rs pf. rewrite <- !stoul_throw, <- number_or_size_throw, <- load_period_throw. unfold generate_random_node_list, generate_random_source_times. split.
  - destruct (number_or_size open c) as [n|]; [|split; [by left|done]]. destruct (stoul qc) as [k|]; [|split; [by right; left|done]]. destruct (stoul rs) as [r|]; [|split; [by right; right|done]].
    split; [|by intros [?|[?|?]]]. by destruct (distribution n).
  - destruct (number_or_size open c) as [n|]; [|split; [by left|done]]. destruct (stoul rs) as [r|]; [|split; [by right; left|done]]. destruct (load_period open pf) as [q|]; [|split; [by right; right|done]].
    split; [|by intros [?|[?|?]]]. by destruct (distribution q).
Qed.
Print Assumptions C76_refuses.
Example C76_refuses_ex : unusable (fun _ => None) (text "nodes") /\ unusable (fun _ => Some [1; 2; 3]%N) (text "nodes") /\
  generate_random_node_list (fun x : N => x) (fun g b => (0%N, g)) (fun _ => None) (text "nodes") (text "4") (text "1") = Some Throw.
Proof.
  assert (forall n, ~ given (text "nodes") n) as H by (apply stoul_throw; by vm_compute). split; [by split|]. split; [by split|by vm_compute].
Qed.

(** Queries that are generated for a graph can be run. *)
Theorem C76_usable : forall G seed (draw : G -> N -> N * G) node_count query_count random_seed n k r fo tail head w, draws_in_range draw ->
  given node_count n -> given query_count k -> given random_seed r -> (0 < n <= 2 ^ 31)%N -> (0 < k)%N ->
  stored_graph fo tail head w -> head <> [] -> length fo = S (N.to_nat n) -> (forall s, s < N.to_nat n -> distances_below tail head w s) ->
  exists source_file target_file source target dist, generate_test_queries seed draw node_count query_count random_seed = Some (Ret (source_file, target_file)) /\
    load_ids source_file = Some (Ret source) /\ load_ids target_file = Some (Ret target) /\
    run_dijkstra (id_file fo) (id_file head) (word_file w) source_file target_file = Some (Ret (word_file dist)) /\ answers tail head w source target dist /\ length dist = N.to_nat k.
Proof.
  intros G seed draw nc qc rs n k r fo tail head w Hd H1 H2 H3 Hn Hk Hst Hh Hfo Hb. destruct (C76_queries_partial G seed draw nc qc rs Hd) as [H _]. destruct (H n k r H1 H2 H3) as [(s & t & E & L1 & L2 & F1 & F2) _]; [done|].
  assert (length fo - 1 = N.to_nat n) as Hl by lia. destruct (C58_dijkstra_partial fo tail head w s t Hst Hh) as (dist & Ed & Ha).
  { rewrite Hl. split; [intros ->; cbn in L1; lia|]. split; [lia|]. done. }
  { intros x Hx. apply Hb. rewrite Forall_forall in F1. by apply F1. }
  assert (forall l, Forall (fun x => x < N.to_nat n) l -> Forall fits32 l) as Hf.
  { intros l Hl'. eapply Forall_impl; [exact Hl'|]. intros x Hx. cbv beta in Hx. unfold fits32. change (2 ^ 31)%N with 2147483648%N in Hn. change (2 ^ 32)%N with 4294967296%N. lia. }
  exists (id_file s), (id_file t), s, t, dist. split; [exact E|]. split; [by apply load_id_file, Hf|]. split; [by apply load_id_file, Hf|]. split; [exact Ed|]. split; [exact Ha|]. destruct Ha as [-> _]. done.
Qed.
Print Assumptions C76_usable.

Local Open Scope string_scope.
(** *** Examples with a linear congruential generator *)
Definition lcg (g b : N) : N * N := let g := ((16807 * g) mod 2147483647)%N in ((g mod (b + 1))%N, g).
Lemma lcg_range : draws_in_range lcg.
Proof. intros g b. unfold lcg. cbn. pose proof (N.mod_lt ((16807 * g) mod 2147483647) (b + 1) ltac:(lia)). lia. Qed.
Example C76_ex : draws_in_range lcg /\ given (text "10") 10 /\ given (text "4") 4 /\ given (text "1") 1 /\
  generate_constant_vector (text "3") (text "7") = Ret (word_file [7; 7; 7]%N) /\ generate_constant_vector (text "three") (text "7") = Throw /\
  generate_test_queries (fun x => x) lcg (text "10") (text "4") (text "1") = Some (Ret (id_file [7; 3; 0; 4], id_file [9; 8; 2; 8])) /\
  generate_random_node_list (fun x => x) lcg (fun _ => Some (word_file (replicate 10 5%N))) (text "x_coordinates") (text "4") (text "1") = Some (Ret (id_file [7; 9; 3; 8])) /\
  generate_random_source_times (fun x => x) lcg (fun _ => Some (le_bytes 4 10)) (text "4") (text "1") (text "period") = Some (Ret (word_file [7; 9; 3; 8]%N)).
Proof.
  split; [apply lcg_range|]. split; [apply stoul_spec; by vm_compute|]. split; [apply stoul_spec; by vm_compute|]. split; [apply stoul_spec; by vm_compute|]. split; [by vm_compute|]. split; [by vm_compute|]. by vm_compute.
Qed.
(** What is missing. Without nodes the distribution is empty; with more than 2^31 nodes it is, too, although 32-bit ids would suffice. *)
Theorem C76_range_refuted : generate_test_queries (fun x => x) lcg (text "0") (text "4") (text "1") = None /\ generate_test_queries (fun x => x) lcg (text "2147483649") (text "4") (text "1") = None.
Proof. split; by vm_compute. Qed.
Print Assumptions C76_range_refuted.
(** Numbers that do not fit are not refused but cut off, and text behind a number is ignored. *)
Theorem C76_arguments_refuted : generate_constant_vector (text "4294967299") (text "7") = Ret (word_file [7; 7; 7]%N) /\ generate_constant_vector (text "3.9") (text "-1") = Ret (word_file (replicate 3 4294967295%N)).
Proof. split; by vm_compute. Qed.
Print Assumptions C76_arguments_refuted.
(** A file whose name starts with a digit is not opened. *)
Theorem C76_file_name_refuted : exists open name, open name = Some (word_file (replicate 10 5%N)) /\
  generate_random_source_times (fun x => x) lcg open name (text "1") (text "period") = Some (Ret (word_file [7; 9]%N)).
Proof. exists (fun name => if decide (name = text "period") then Some (le_bytes 4 10) else Some (word_file (replicate 10 5%N))), (text "2.times"). split; by vm_compute. Qed.
Print Assumptions C76_file_name_refuted.
