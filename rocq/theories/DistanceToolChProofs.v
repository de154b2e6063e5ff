(** Proofs about DistanceToolModel: the programs that use contraction hierarchies. *)
From Verif Require Import Base ProtobufModel BitVectorModel BitVectorSpec BitVectorProofs BitVectorBulkProofs VectorIoModel VectorIoProofs UtilSpec GraphSpec PathSpec ChCleanSpec ChBuildModel ChSpec
  ChQueryModel ChApiSpec ChApiProofs Properties_ChQuery ChCheckSpec ChCheckModel ChCheckProofs Properties_ChCheck ChFileModel ChFileSpec ChFileProofs Properties_ChFile VerifyModel VerifyProofs DistanceToolModel.
From Verif Require CchQueryProofs.
From Verif Require Import WalkSpec DistanceToolSpec DistanceToolProofs.
Ltac Zify.zify_post_hook ::= idtac.

(** ** Objects *)
Definition memory_ok (memory : nat -> list N) : Prop := forall k, length (memory k) = u64_count k /\ BitVectorProofs.words (memory k).
Lemma bits_made g l : length g = u64_count (length l) -> BitVectorProofs.words g -> exists v, make_bit_vector g (length l) (fun i => nth i l false) = Some v /\ bv_rep v l.
Proof.
  intros H1 H2. destruct (make_spec g (length l) (fun i => nth i l false) H1 H2) as (v & E & Hv). exists v. split; [done|].
  assert ((fun i => nth i l false) <$> seq 0 (length l) = l) as El; [|by rewrite El in Hv].
  apply list_eq. intros i. rewrite list_lookup_fmap. destruct (decide (i < length l)) as [Hi|Hi].
  - rewrite lookup_seq_lt by done. cbn. destruct (lookup_lt_is_Some_2 l i Hi) as [x Hx]. rewrite Hx. by rewrite (nth_lookup_Some _ _ _ _ Hx).
  - rewrite lookup_seq_ge by lia. cbn. by rewrite lookup_ge_None_2 by lia.
Qed.
Lemma object_made memory c : memory_ok memory -> exists o, object_of (memory (length (cs_orig (ch_fwd c)))) (memory (length (cs_orig (ch_bwd c)))) c = Some o /\ ch_object o c.
Proof.
  intros Hm. unfold object_of. destruct (Hm (length (cs_orig (ch_fwd c)))) as [L1 W1]. destruct (Hm (length (cs_orig (ch_bwd c)))) as [L2 W2].
  destruct (bits_made _ _ L1 W1) as (vf & -> & Hf). destruct (bits_made _ _ L2 W2) as (vb & -> & Hb). rewrite !bind_S. eexists. split; [done|]. done.
Qed.
Lemma bits_read v l : bv_rep v l -> mapM (bv_is_set v) (seq 0 (bv_size v)) = Some l.
Proof.
  intros H. assert (bv_size v = length l) as -> by apply H. apply mapM_Some, Forall2_same_length_lookup. split; [by rewrite seq_length|].
  intros i x y Hx Hy. apply lookup_seq in Hx as [-> Hi]. rewrite (is_set_spec v l) by done. done.
Qed.
Lemma object_read o c : ch_object o c -> ch_of_object o = Some c.
Proof.
  intros (Hr & Ho & (F1 & F2 & F3 & F4 & F5 & F6) & (B1 & B2 & B3 & B4 & B5 & B6)). unfold ch_of_object. rewrite (bits_read _ _ F4), (bits_read _ _ B4), !bind_S.
  rewrite Hr, Ho, F1, F2, F3, F5, F6, B1, B2, B3, B5, B6. by destruct c as [? ? [] []].
Qed.

(** ** Queries *)
Lemma history_app H G ops G' ops' G'' : khistory H G ops G' -> khistory H G' ops' G'' -> khistory H G (ops ++ ops') G''.
Proof. induction 1; [done|]. intros. econstructor; eauto. Qed.
Definition query_ops (s t : nat) : list chop := [KReset; KSource s 0; KTarget t 0; KRun].
Lemma query_history c G s t : s < ch_nodes c -> t < ch_nodes c -> khistory any_ch (c, G) (query_ops s t) (c, KDone [(s, 0%N)] [(t, 0%N)]).
Proof.
  intros Hs Ht. econstructor; [apply ka_reset|]. econstructor; [by apply ka_source|]. econstructor; [by apply ka_target|]. econstructor; [by apply ka_run|]. constructor.
Qed.
Lemma query_exec q s t x q' : kexec_all (query_ops s t) q = Some q' -> cq_distance q' = Some x -> ch_query q s t = Some (x, q').
Proof.
  unfold kexec_all, query_ops, ch_query. cbn [for_each kexec].
  destruct (cq_reset q) as [q1|]; [|done]. rewrite !bind_S. destruct (cq_add_source q1 s 0) as [q2|]; [|done]. rewrite !bind_S.
  destruct (cq_add_target q2 t 0) as [q3|]; [|done]. rewrite !bind_S. destruct (cq_run q3) as [q4|]; [|done]. rewrite !bind_S. intros [= ->] ->. by rewrite bind_S.
Qed.
Lemma route_distance tail head w s t x : length w = length tail -> best_route (arcs_of tail head w) [(s, 0%N)] [(t, 0%N)] x -> is_distance tail head w s t x.
Proof.
  intros Hl (H1 & H2 & H3). split; [done|]. split.
  - intros L (p & Hp & ->). assert (dist_walk (arcs_of tail head w) s t (total w p)) as Hd.
    { destruct p as [|e p]; [inversion Hp; by left|]. right. exists (length (e :: p)). apply awalk_gw; [done|done|done|]. by apply Forall_forall. }
    specialize (H2 s 0%N t 0%N _ ltac:(by apply elem_of_list_singleton) ltac:(by apply elem_of_list_singleton) Hd). lia.
  - destruct H3 as [-> |(s' & ds & t' & dt & L & Hs & Ht & Hd & ->)]; [by left|]. right. apply elem_of_list_singleton in Hs as [= -> ->]. apply elem_of_list_singleton in Ht as [= -> ->].
    destruct Hd as [[-> ->]|(k & (p & _ & Hp & <- & _)%gw_awalk)].
    + exists []. split; [constructor|done].
    + exists p. split; [done|lia].
Qed.
Section queries.
Context (n : nat) (tail head : list nat) (w : list N) (c : ch).
Hypothesis Hof : ch_of n tail head w c.
Lemma ch_queries_spec source : forall target ops G q, khistory any_ch (c, KInit [] []) ops (c, G) -> kexec_all ops (new_cquery c) = Some q ->
  Forall (fun x => x < n) source -> Forall (fun x => x < n) target -> length source <= length target ->
  exists xs, ch_queries q source target = Some xs /\ answers tail head w source target xs.
Proof.
  assert (any_ch c) as Hany by (by exists n, tail, head, w).
  induction source as [|s source IH]; intros target ops G q Hh Hq Hs Ht Hl; cbn [ch_queries].
  { exists []. done. }
  destruct target as [|t target]; [cbn in Hl; lia|]. change ((t :: target) !! 0) with (Some t). change (drop 1 (t :: target)) with target. rewrite bind_S.
  apply Forall_cons in Hs as [Hs Hss]. apply Forall_cons in Ht as [Ht Htt].
  assert (ch_nodes c = n) as Hn by (by eapply of_nodes).
  assert (khistory any_ch (c, KInit [] []) (ops ++ query_ops s t) (c, KDone [(s, 0%N)] [(t, 0%N)])) as Hh'.
  { eapply history_app; [exact Hh|]. apply query_history; by rewrite Hn. }
  destruct (C29_query _ _ _ _ _ _ _ _ _ Hany Hof Hh') as (q' & x & E & Hx & Hr & _).
  assert (kexec_all (query_ops s t) q = Some q') as E'.
  { unfold kexec_all in E, Hq. rewrite CchQueryProofs.for_each_app, Hq in E. exact E. }
  rewrite (query_exec _ _ _ _ _ E' Hx), bind_S. destruct (IH target _ _ q' Hh' E Hss Htt) as (xs & -> & Hlen & Hxs); [cbn in Hl; lia|]. rewrite bind_S.
  exists (x :: xs). split; [done|]. split; [cbn; lia|]. intros [|i] a b y Ha Hb Hy; cbn in Ha, Hb, Hy; [|by eapply Hxs]. simplify_eq. apply route_distance; [|done].
  destruct Hof as ((L1 & L2 & _) & _). congruence.
Qed.
End queries.

(** ** The programs *)
Definition hierarchy_fits (n : nat) (tail head : list nat) (w : list N) : Prop :=
  forall asserts c, ch_build asserts 500 n tail head w = Some c -> weights_below (ch_fwd c) /\ weights_below (ch_bwd c) /\ (numbers_in c < 2 ^ 32)%N.
Lemma compute_ch_spec asserts pad memory fo tail head w : length pad = 4 -> memory_ok memory -> stored_graph fo tail head w -> head <> [] ->
  (N.of_nat (length fo) + 1 < 2 ^ 32)%N -> hierarchy_fits (length fo - 1) tail head w ->
  exists file o c, compute_contraction_hierarchy asserts pad memory (id_file fo) (id_file head) (word_file w) = Some (Ret file) /\
    ch_of (length fo - 1) tail head w c /\ load_ch file = Some (Ret o) /\ ch_object o c.
Proof.
  intros Hp Hmem [Hc Ht Hw Hn Hm Hww] Hne Hn1 Hfit. destruct (csr_fits _ _ Hc Hn Hm) as [F1 F2].
  unfold compute_contraction_hierarchy. rewrite (load_id_file fo F1), (load_id_file head F2), (load_word_file w Hww). cbn [andthen].
  rewrite (check_valid _ _ Hc). cbn [andthen]. rewrite throw_if_then. destruct (Nat.eqb_spec (length head) 0) as [E0|_]; [destruct head; done|].
  rewrite (check_graph_tool fo tail head w Hc Ht Hne), decide_True by done. cbn [andthen].
  assert (arc_list (length fo - 1) tail head w) as Ha.
  { split; [apply Ht|]. split; [done|]. split; [by eapply csr_tails_lt|]. apply Forall_forall. apply Hc. }
  destruct (C46_build asserts 500 _ _ _ _ Ha) as (c & E & _). rewrite E, bind_S. destruct (Hfit _ _ E) as (W1 & W2 & Hnum).
  assert (ch_of (length fo - 1) tail head w c) as Hof. { split; [done|]. split; [|done]. exists asserts, 500. by left. }
  rewrite (C45_constructed _ _ _ _ _ Hof) by (rewrite (proj1 Ht); unfold fits32 in Hm; unfold last_id; lia). rewrite bind_S. rewrite throw_if_then. cbn [negb].
  destruct (object_made memory c Hmem) as (o & -> & Ho). rewrite bind_S.
  assert (ch_fits c) as Hcf.
  { eapply C33_constructed; [exact Hof|lia|rewrite (proj1 Ht); unfold fits32 in Hm; lia| |]; unfold id_fits; unfold numbers_in in Hnum; lia. }
  destruct (C33_file pad o c Hp Ho Hcf Hnum) as (o' & E' & Ho'). by exists (save_ch pad o), o', c.
Qed.
Lemma run_ch_spec fo tail head w c o file source target : stored_graph fo tail head w -> ch_of (length fo - 1) tail head w c -> load_ch file = Some (Ret o) -> ch_object o c ->
  stored_queries (length fo - 1) source target ->
  exists dist, run_ch_queries file (id_file source) (id_file target) = Some (Ret (word_file dist)) /\ answers tail head w source target dist.
Proof.
  intros [Hc Ht Hw Hn Hm Hww] Hof Hl Ho Hq. destruct (queries_fit (length fo - 1) source target) as [F3 F4]; [unfold fits32 in *; lia|done|]. destruct Hq as (Hs0 & Hlen & Hs & Htt).
  unfold run_ch_queries. rewrite Hl. cbn [andthen]. rewrite (load_id_file source F3), (load_id_file target F4). cbn [andthen]. rewrite (object_read _ _ Ho), bind_S.
  destruct (ch_queries_spec _ _ _ _ _ Hof source target [] (KInit [] []) (new_cquery c)) as (dist & -> & Hd); [constructor|done|done|done|lia|]. rewrite bind_S.
  unfold print_average. destruct (Nat.eqb_spec (length source) 0) as [E0|_]; [destruct source; done|]. cbn [negb chk]. rewrite bind_S. by exists dist.
Qed.
Lemma distance_unique tail head w s t x y : is_distance tail head w s t x -> is_distance tail head w s t y -> x = y.
Proof.
  intros (A1 & A2 & A3) (B1 & B2 & B3). destruct A3 as [-> |A3], B3 as [-> |B3]; [done|..].
  - pose proof (A2 _ B3). lia.
  - pose proof (B2 _ A3). lia.
  - pose proof (A2 _ B3). pose proof (B2 _ A3). lia.
Qed.
Lemma answers_unique tail head w source target xs ys : length source = length target -> answers tail head w source target xs -> answers tail head w source target ys -> xs = ys.
Proof.
  intros Hl [L1 H1] [L2 H2]. apply list_eq_same_length with (length xs); [congruence|done|]. intros i x y Hi Hx Hy.
  destruct (lookup_lt_is_Some_2 source i) as [s Hs]; [lia|]. destruct (lookup_lt_is_Some_2 target i) as [t Ht]; [lia|]. eapply distance_unique; [by eapply H1|by eapply H2].
Qed.
