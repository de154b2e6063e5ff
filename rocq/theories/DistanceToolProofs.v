(** Proofs about DistanceToolModel. *)
From Verif Require Import Base ProtobufModel BitVectorModel VectorIoModel VectorIoProofs Properties_VectorIo UtilSpec PermutationModel PermutationProofs GraphSpec PathSpec
  IdQueueModel IdQueueProofs IdSetModel IdSetSpec IdSetProofs DijkstraModel DijkstraProofs DijkstraReset Properties_Dijkstra ChFileModel ChFileSpec ChFileProofs VerifyModel VerifyProofs DistanceToolModel.
From Verif Require Import WalkSpec DistanceToolSpec.
Ltac Zify.zify_post_hook ::= idtac.

(** ** Files *)
Lemma load_id_file l : Forall fits32 l -> load_ids (id_file l) = Some (Ret l).
Proof. intros H. unfold load_ids. f_equal. by apply (C40_vector 4 enc_id dec_id id_fits l image_id). Qed.
Lemma load_word_file l : Forall (fun x => x < 2 ^ 32)%N l -> load_words (word_file l) = Some (Ret l).
Proof. intros H. unfold load_words. f_equal. apply (C40_vector 4 (le_bytes 4) le_word (fun w => w < 256 ^ N.of_nat 4)%N l); [by apply C40_unsigned; lia|done]. Qed.
Lemma csr_fits fo head : csr (length fo - 1) fo head -> fits32 (length fo) -> fits32 (length head) -> Forall fits32 fo /\ Forall fits32 head.
Proof.
  intros H Hn Hm. unfold fits32 in *. split; apply Forall_forall; intros x Hx.
  - apply elem_of_list_lookup in Hx as (i & Hi). assert (x <= length head); [|lia].
    apply (csr_mono_le _ _ _ i (length fo - 1) _ _ H); [apply lookup_lt_Some in Hi; lia|done|apply H].
  - apply (csr_head _ _ _ H) in Hx. lia.
Qed.

(** ** Walks *)
Section graph.
Context (fo tail head : list nat) (w : list N).
Hypothesis Hcsr : csr (length fo - 1) fo head.
Hypothesis Htail : tails_ok fo tail head.
Hypothesis Hlen : length w = length head.

Lemma walk_awalk u p v : walk fo head u p v <-> awalk tail head u p v.
Proof.
  revert u. induction p as [|e p IH]; intros u; cbn [walk].
  - split; [intros ->; constructor|]. intros H. by inversion H.
  - split.
    + intros (x & [Ho Hh] & H). econstructor; [by apply Htail|done|by apply IH].
    + intros H. inversion H as [|? ? x ? ? Ht Hh Hr]; simplify_eq. exists x. split; [|by apply IH]. split; [|done].
      destruct (csr_tail_exists _ _ _ e Hcsr) as (y & _ & Hy); [by eapply lookup_lt_Some|]. pose proof (proj2 Htail _ _ Hy). by simplify_eq.
Qed.
Definition small (p : list nat) : Prop := forall e x, e ∈ p -> w !! e = Some x -> (x < inf_weight)%N.
Lemma arrival_total t p t' : Forall (fun e => e < length w) p -> arrival (scalar_weight w) t p = Some t' <-> small p /\ t' = (t + total w p)%N.
Proof.
  revert t. induction p as [|e p IH]; intros t Hp; cbn [arrival].
  - change (total w []) with 0%N. rewrite N.add_0_r. split; [intros [= ->]; split; [|done]; intros e x He; by apply elem_of_nil in He|by intros [_ ->]].
  - apply Forall_cons in Hp as [He Hp]. destruct (lookup_lt_is_Some_2 w e He) as [x Hx]. change (scalar_weight w e t) with (w !! e). rewrite Hx, bind_S.
    change (total w (e :: p)) with (default 0%N (w !! e) + total w p)%N. rewrite Hx. cbn [default from_option]. unfold id.
    case_decide as Hd.
    + rewrite IH by done. split.
      * intros [H ->]. split; [|lia]. intros e' x' [-> |H']%elem_of_cons Hx'; [by simplify_eq|by eapply H].
      * intros [H ->]. split; [|lia]. intros e' x' H' Hx'. eapply H; [by apply elem_of_cons; right|done].
    + split; [done|]. intros [H _]. exfalso. apply Hd. eapply H; [by apply elem_of_cons; left|done].
Qed.
Lemma total_small p : Forall (fun e => e < length w) p -> (total w p < inf_weight)%N -> small p.
Proof.
  intros Hp. induction p as [|e p IH]; intros H e' x He Hx; [by apply elem_of_nil in He|].
  apply Forall_cons in Hp as [_ Hp]. change (total w (e :: p)) with (default 0%N (w !! e) + total w p)%N in H.
  apply elem_of_cons in He as [-> |He]; [rewrite Hx in H; cbn in H; lia|]. eapply IH; [done|lia|done|done].
Qed.
Lemma awalk_lt u p v : awalk tail head u p v -> Forall (fun e => e < length w) p.
Proof. intros H. apply Forall_forall. intros e He. rewrite Hlen, <- (proj1 Htail). by eapply awalk_valid. Qed.
Lemma reachable_walk s v t : reachable_at fo head (scalar_weight w) [(s, 0%N)] v t <-> exists p, awalk tail head s p v /\ small p /\ t = total w p.
Proof.
  split.
  - intros (s' & t0 & p & Hs & Hp & Ha). apply elem_of_list_singleton in Hs as [= -> ->]. apply walk_awalk in Hp. exists p. split; [done|].
    apply arrival_total in Ha as [H ->]; [|by eapply awalk_lt]. split; [done|lia].
  - intros (p & Hp & Hs & ->). exists s, 0%N, p. split; [by apply elem_of_list_singleton|]. split; [by apply walk_awalk|]. apply arrival_total; [by eapply awalk_lt|]. split; [done|lia].
Qed.
Lemma bounded_start s : distances_below tail head w s -> forall v t, earliest fo head (scalar_weight w) [(s, 0%N)] v t -> (t < inf_weight)%N.
Proof.
  intros Hb v t [Hr Hmin]. apply reachable_walk in Hr as (p & Hp & Hs & ->). destruct (Hb p v Hp Hs) as (p' & Hp' & Hlt).
  eapply N.le_lt_trans; [|exact Hlt]. apply Hmin, reachable_walk. exists p'. split; [done|]. split; [|done]. apply total_small; [by eapply awalk_lt|done].
Qed.
Lemma earliest_distance s v t : (t < inf_weight)%N -> earliest fo head (scalar_weight w) [(s, 0%N)] v t -> is_distance tail head w s v t.
Proof.
  intros Ht [Hr Hmin]. split; [lia|]. split.
  - intros L (p & Hp & ->). destruct (N.lt_ge_cases (total w p) inf_weight); [|lia]. apply Hmin, reachable_walk. exists p. split; [done|]. split; [|done]. apply total_small; [by eapply awalk_lt|done].
  - right. apply reachable_walk in Hr as (p & Hp & _ & ->). by exists p.
Qed.
Lemma unreachable_distance s v : (forall t, ~ reachable_at fo head (scalar_weight w) [(s, 0%N)] v t) -> is_distance tail head w s v inf_weight.
Proof.
  intros Hno. split; [lia|]. split; [|by left]. intros L (p & Hp & ->). destruct (N.lt_ge_cases (total w p) inf_weight); [|lia].
  exfalso. apply (Hno (total w p)), reachable_walk. exists p. split; [done|]. split; [|done]. apply total_small; [by eapply awalk_lt|done].
Qed.

(** ** The search of run_dijkstra *)
Let g := mkGraph fo tail head.
Let n := length fo - 1.
Let W := scalar_weight w.
Lemma weights_exist : forall a t, a < length (g_head g) -> is_Some (W a t).
Proof. intros a t Ha. apply lookup_lt_is_Some_2. cbn in Ha. lia. Qed.
Lemma weights_fifo : fifo W.
Proof. apply scalar_fifo. Qed.

Lemma reset_dinv ss ord d : dinv n g W ss ord d -> exists d', d_reset d = Some d' /\ dinv n g W [] [] d'.
Proof.
  intros [Hg Hlt _ Hf (m & Hq & C)]. destruct (clear_empty n _ _ Hq) as (q & E & Hq' & _). unfold d_reset. rewrite E, bind_S. eexists. split; [done|].
  apply dinv_init; [done|done|apply (c_len _ _ _ _ _ _ _ _ C)| |done].
  destruct (f_step_refines n _ _ FResetAll Hf I) as (f' & Ef & Hf'). cbn in Ef, Hf'. injection Ef as <-. exact Hf'.
Qed.
Lemma source_dinv d s : dinv n g W [] [] d -> s < n -> exists d', add_source d s 0%N = Some d' /\ dinv n g W [(s, 0%N)] [] d'.
Proof.
  intros Hd Hs. destruct (add_sources_spec n g W Hcsr Htail weights_exist weights_fifo d [(s, 0%N)] Hd) as (d' & E & Hd').
  - apply NoDup_singleton.
  - intros v t [= -> ->]%elem_of_list_singleton. done.
  - exists d'. split; [|done]. unfold add_sources in E. cbn in E. destruct (add_source d s 0); [|done]. exact E.
Qed.
Lemma settle_until_spec ss t fuel : bounded g W ss -> forall ord d, dinv n g W ss ord d -> n < fuel + length ord ->
  exists ord' d', settle_until fuel d W t = Some d' /\ dinv n g W ss ord' d' /\ (is_finished d' = true \/ t ∈ fst <$> ord').
Proof.
  intros Hb. induction fuel as [|fuel IH]; intros ord d Hd Hfu; cbn [settle_until].
  - pose proof (ord_length n g W weights_exist ss ord d Hd). lia.
  - destruct (is_finished d) eqn:Ef; [exists ord, d; split; [done|]; split; [done|]; by left|].
    destruct (settle_spec n g W Hcsr Htail weights_exist weights_fifo ss ord d Hb Hd Ef) as (x & k & d' & -> & Hd'). rewrite bind_S.
    destruct (Nat.eqb_spec x t) as [-> |Hne].
    + exists (ord ++ [(t, k)]), d'. split; [done|]. split; [done|]. right. rewrite fmap_app. apply elem_of_app. right. by apply elem_of_list_singleton.
    + apply (IH _ _ Hd'). rewrite app_length. cbn. lia.
Qed.
Lemma distance_known s ord d t : distances_below tail head w s -> dinv n g W [(s, 0%N)] ord d -> t < n -> (is_finished d = true \/ t ∈ fst <$> ord) ->
  exists x, get_distance_to d t = Some x /\ is_distance tail head w s t x.
Proof.
  intros Hb Hd Ht Hor. destruct (decide (t ∈ fst <$> ord)) as [Hin|Hno].
  - apply elem_of_list_fmap in Hin as ([t' k] & -> & Hin). exists k. split; [by eapply get_distance_settled|]. cbn [fst].
    destruct Hd as [_ _ _ _ (m & _ & C)]. pose proof (c_earliest _ _ _ _ _ _ _ _ C _ _ Hin) as He. apply earliest_distance; [by eapply bounded_start|done].
  - destruct Hor as [Hfin|]; [|done]. exists inf_weight. split; [by eapply get_distance_unsettled|]. apply unreachable_distance. intros k Hk. apply Hno.
    eapply (finished_reached n g W weights_exist weights_fifo); [done|done|by exists k].
Qed.
Lemma dijkstra_query_spec ss ord d s t : dinv n g W ss ord d -> distances_below tail head w s -> s < n -> t < n ->
  exists x d' ord', dijkstra_query W d s t = Some (x, d') /\ dinv n g W [(s, 0%N)] ord' d' /\ is_distance tail head w s t x.
Proof.
  intros Hd Hb Hs Ht. unfold dijkstra_query. destruct (reset_dinv _ _ _ Hd) as (d1 & -> & Hd1). rewrite bind_S.
  destruct (source_dinv d1 s Hd1 Hs) as (d2 & -> & Hd2). rewrite bind_S.
  destruct (settle_until_spec [(s, 0%N)] t (S (node_count (d_graph d2))) (bounded_start s Hb) [] d2 Hd2) as (ord' & d3 & -> & Hd3 & Hor).
  { rewrite (i_graph _ _ _ _ _ _ Hd2). cbn [length]. change (node_count g) with n. lia. }
  rewrite bind_S. destruct (distance_known s ord' d3 t Hb Hd3 Ht Hor) as (x & -> & Hx). rewrite bind_S. by exists x, d3, ord'.
Qed.
Lemma dijkstra_queries_spec qs : (forall s t, (s, t) ∈ qs -> s < n /\ t < n /\ distances_below tail head w s) -> forall ss ord d, dinv n g W ss ord d ->
  exists xs, dijkstra_queries W d qs = Some xs /\ Forall2 (fun q x => is_distance tail head w (fst q) (snd q) x) qs xs.
Proof.
  induction qs as [|[s t] qs IH]; intros Hq ss ord d Hd; cbn [dijkstra_queries]; [by exists []|].
  destruct (Hq s t) as (Hs & Ht & Hb); [by apply elem_of_cons; left|].
  destruct (dijkstra_query_spec ss ord d s t Hd Hb Hs Ht) as (x & d' & ord' & -> & Hd' & Hx). rewrite bind_S.
  destruct (IH ltac:(intros; apply Hq; by apply elem_of_cons; right) _ _ _ Hd') as (xs & -> & Hxs). rewrite bind_S. exists (x :: xs). split; [done|]. by constructor.
Qed.

(** ** The search of generate_dijkstra_rank_test_queries *)
Definition rank_prefix (s : nat) (ord : list (nat * N)) (r : nat) (qs : list (nat * nat * nat * N)) : Prop :=
  length qs = r - 6 /\ forall i, i < r - 6 -> exists v d, qs !! i = Some (s, v, 6 + i, d) /\ ord !! (2 ^ (6 + i) - 1) = Some (v, d).
Lemma rank_prefix_app s ord r qs x : rank_prefix s ord r qs -> rank_prefix s (ord ++ [x]) r qs.
Proof.
  intros [Hl H]. split; [done|]. intros i Hi. destruct (H i Hi) as (v & d & H1 & H2). exists v, d. split; [done|]. by apply lookup_app_l_Some.
Qed.
Lemma rank_prefix_done s ord r qs : rank_prefix s ord r qs -> length ord < 2 ^ r -> rank_queries_of s ord qs.
Proof.
  intros [Hl H] Hr i. destruct (decide (i < r - 6)) as [Hi|Hi]; [left; by apply H|]. right. split; [apply lookup_ge_None_2; lia|].
  apply lookup_ge_None_2. assert (2 ^ r <= 2 ^ (6 + i)) by (apply Nat.pow_le_mono_r; lia). lia.
Qed.
Lemma small_rank r k : (N.of_nat k < 2 ^ 31)%N -> (r = 0 \/ 2 ^ (r - 1) <= k) -> r < 32.
Proof.
  intros Hk [-> |H]; [lia|]. assert (N.of_nat (2 ^ (r - 1)) < 2 ^ 31)%N as Hlt by (revert H; generalize (2 ^ (r - 1)); intros; lia). rewrite Nat2N.inj_pow in Hlt. apply N.pow_lt_mono_r_iff in Hlt; lia.
Qed.
Lemma rank_loop_spec s fuel out : bounded g W [(s, 0%N)] -> (N.of_nat n <= 2 ^ 31)%N -> forall ord d r qs, dinv n g W [(s, 0%N)] ord d -> n < fuel + length ord ->
  length ord < 2 ^ r -> (r = 0 \/ 2 ^ (r - 1) <= length ord) -> rank_prefix s ord r qs ->
  exists d' ord' qs', rank_loop fuel W s d r (length ord) (out ++ qs) = Some (d', out ++ qs') /\ dinv n g W [(s, 0%N)] ord' d' /\ is_finished d' = true /\ rank_queries_of s ord' qs'.
Proof.
  intros Hb Hn31. induction fuel as [|fuel IH]; intros ord d r qs Hd Hfu Hr Hr' Hq; cbn [rank_loop].
  - pose proof (ord_length n g W weights_exist _ ord d Hd). lia.
  - destruct (is_finished d) eqn:Ef; [exists d, ord, qs; split; [done|]; split; [done|]; split; [done|]; by eapply rank_prefix_done|].
    destruct (settle_spec n g W Hcsr Htail weights_exist weights_fifo _ ord d Hb Hd Ef) as (x & k & d' & -> & Hd'). rewrite bind_S.
    pose proof (ord_length n g W weights_exist _ _ d' Hd') as Hol. rewrite app_length in Hol. cbn [length] in Hol.
    assert (r < 32) as Hr32 by (apply (small_rank r (length ord)); [lia|done]). destruct (Nat.ltb_spec r 32) as [_|]; [|lia]. cbn [chk]. rewrite bind_S.
    assert (length (ord ++ [(x, k)]) = S (length ord)) as Hlen' by (rewrite app_length; cbn; lia).
    destruct (Nat.eqb_spec (S (length ord)) (2 ^ r)) as [Ee|Ee].
    + specialize (IH (ord ++ [(x, k)]) d' (S r)). rewrite Hlen' in IH. destruct (Nat.ltb_spec 5 r) as [H5|H5].
      * rewrite <- app_assoc. apply IH; [done|lia|cbn [Nat.pow]; lia| |].
        { right. replace (S r - 1) with r by lia. lia. }
        destruct Hq as [Hl Hq]. split; [rewrite app_length; cbn [length]; lia|]. intros i Hi. destruct (decide (i < r - 6)) as [Hi'|Hi'].
        { destruct (Hq i Hi') as (v & dd & H1 & H2). exists v, dd. split; by apply lookup_app_l_Some. }
        assert (i = r - 6) as -> by lia. replace (6 + (r - 6)) with r by lia. exists x, k. split.
        { rewrite lookup_app_r by lia. rewrite Hl, Nat.sub_diag. done. }
        rewrite <- Ee. replace (S (length ord) - 1) with (length ord) by lia. by rewrite lookup_app_r, Nat.sub_diag by lia.
      * apply IH; [done|lia|cbn [Nat.pow]; lia| |].
        { right. replace (S r - 1) with r by lia. lia. }
        apply rank_prefix_app. destruct Hq as [Hl Hq]. split; [lia|]. intros i Hi. lia.
    + specialize (IH (ord ++ [(x, k)]) d' r). rewrite Hlen' in IH. apply IH; [done|lia|lia| |by apply rank_prefix_app]. destruct Hr' as [? |?]; [by left|]. right. lia.
Qed.
Lemma finished_ranked s ord d : distances_below tail head w s -> dinv n g W [(s, 0%N)] ord d -> is_finished d = true -> ranked tail head w s ord.
Proof.
  intros Hb Hd Hfin. pose proof Hd as [_ _ _ _ (m & _ & C)]. split; [apply (c_nodup _ _ _ _ _ _ _ _ C)|]. split; [|split; [|apply (c_sorted _ _ _ _ _ _ _ _ C)]].
  - intros v. split.
    + intros ([v' k] & -> & Hin)%elem_of_list_fmap. cbn [fst]. pose proof (c_earliest _ _ _ _ _ _ _ _ C _ _ Hin) as He. exists k. split; [|by eapply bounded_start].
      destruct He as [(p & Hp & _ & ->)%reachable_walk _]. by exists p.
    + intros (L & (p & Hp & ->) & HL). eapply (finished_reached n g W weights_exist weights_fifo); [done|done|]. exists (total w p). apply reachable_walk.
      exists p. split; [done|]. split; [|done]. apply total_small; [by eapply awalk_lt|done].
  - intros v k Hin. pose proof (c_earliest _ _ _ _ _ _ _ _ C _ _ Hin) as He. apply earliest_distance; [by eapply bounded_start|done].
Qed.
Lemma rank_queries_spec sources : (N.of_nat n <= 2 ^ 31)%N -> Forall (fun s => s < n /\ distances_below tail head w s) sources -> forall ss ord d, dinv n g W ss ord d ->
  exists d' qss, rank_queries W d sources = Some (d', concat qss) /\ Forall2 (fun s qs => exists ord, ranked tail head w s ord /\ rank_queries_of s ord qs) sources qss.
Proof.
  intros Hn31 Hall ss0 ord0 d0 Hd0. unfold rank_queries.
  destruct (for_each_inv (fun pre (st : dijkstra * list rank_query) => exists ss ord qss, dinv n g W ss ord (fst st) /\ snd st = concat qss /\
      Forall2 (fun s qs => exists ord, ranked tail head w s ord /\ rank_queries_of s ord qs) pre qss)
    (fun s st => let '(d, out) := st in d ← d_reset d; d ← add_source d s 0%N; rank_loop (S (node_count (d_graph d))) W s d 0 0 out) sources (d0, [])) as ([d' out] & E & ss & ord & qss & Hd & Hout & Hqs).
  - exists ss0, ord0, []. done.
  - intros pre s post [d out] -> (ss & ord & qss & Hd & Hout & Hqs). cbn [fst snd] in *. apply Forall_app in Hall as [_ Hall]. apply Forall_cons in Hall as [[Hs Hb] _].
    destruct (reset_dinv _ _ _ Hd) as (d1 & -> & Hd1). rewrite bind_S. destruct (source_dinv d1 s Hd1 Hs) as (d2 & -> & Hd2). rewrite bind_S.
    destruct (rank_loop_spec s (S (node_count (d_graph d2))) out (bounded_start s Hb) Hn31 [] d2 0 [] Hd2) as (d3 & ord3 & qs & E & Hd3 & Hfin & Hq).
    { rewrite (i_graph _ _ _ _ _ _ Hd2). cbn [length]. change (node_count g) with n. lia. }
    { cbn. lia. }
    { by left. }
    { split; [done|]. intros i Hi. lia. }
    rewrite app_nil_r in E. cbn [length] in E. rewrite E. eexists. split; [done|]. exists [(s, 0%N)], ord3, (qss ++ [qs]). cbn [fst snd]. split; [done|]. split; [rewrite concat_app, Hout; cbn; by rewrite app_nil_r|].
    apply Forall2_app; [done|]. constructor; [|constructor]. exists ord3. split; [by eapply finished_ranked|done].
  - cbn [fst snd] in *. subst out. exists d', qss. split; [exact E|done].
Qed.
End graph.

(** ** The checks *)
Lemma tails_exist fo head : csr (length fo - 1) fo head -> exists tail, invert_inverse_vector fo = Some tail /\ tails_ok fo tail head.
Proof.
  intros H. destruct (invert_inverse_vector_correct fo) as (tail & E & (m & Hm & Hl) & Ht).
  { split; [apply H|]. apply (csr_mono _ _ _ H). }
  exists tail. split; [done|]. split; [pose proof (csr_last _ _ _ H); congruence|]. intros x a (lo & hi & Hlo & Hhi & Ha). by eapply Ht.
Qed.
Lemma tails_unique n fo head t1 t2 : csr n fo head -> tails_ok fo t1 head -> tails_ok fo t2 head -> t1 = t2.
Proof.
  intros Hc [L1 H1] [L2 H2]. apply list_eq. intros a. destruct (decide (a < length head)) as [Ha|Ha].
  - destruct (csr_tail_exists _ _ _ a Hc Ha) as (x & _ & Hx). by rewrite (H1 _ _ Hx), (H2 _ _ Hx).
  - by rewrite !lookup_ge_None_2 by lia.
Qed.
Lemma csr_tails_lt n fo tail head : csr n fo head -> tails_ok fo tail head -> Forall (fun x => x < n) tail.
Proof.
  intros Hc [Hl Ht]. apply Forall_lookup_2. intros a x Hx. destruct (csr_tail_exists _ _ _ a Hc) as (y & Hy & Ho); [rewrite <- Hl; by eapply lookup_lt_Some|].
  pose proof (Ht _ _ Ho). by simplify_eq.
Qed.
Lemma csr_non_empty n fo head : csr n fo head -> fo <> [].
Proof. intros H ->. pose proof (csr_len _ _ _ H). done. Qed.
Lemma check_valid fo head : csr (length fo - 1) fo head -> check_if_graph_is_valid fo head = Some (Ret tt).
Proof. intros H. destruct (check_graph_spec fo head (csr_non_empty _ _ _ H)) as (r & -> & Hr). f_equal. by apply Hr. Qed.
Lemma check_invalid fo head : fo <> [] -> ~ csr (length fo - 1) fo head -> check_if_graph_is_valid fo head = Some Throw.
Proof. intros Hne H. destruct (check_graph_spec fo head Hne) as ([[]|] & -> & Hr); [|done]. exfalso. by apply H, Hr. Qed.
Lemma check_graph_tool fo tail head w : csr (length fo - 1) fo head -> tails_ok fo tail head -> head <> [] ->
  check_graph fo head w = Some (if decide (length w = length head) then Ret tail else Throw).
Proof.
  intros Hc Ht Hne. unfold check_graph. rewrite (check_valid _ _ Hc). cbn [andthen]. destruct (tails_exist _ _ Hc) as (tail' & -> & Ht'). rewrite bind_S.
  rewrite (tails_unique _ _ _ _ _ Hc Ht' Ht). rewrite (csr_first _ _ _ Hc), bind_S, last_at, (csr_last _ _ _ Hc), bind_S. rewrite throw_if_then. cbn [Nat.eqb negb]. rewrite throw_if_then, Nat.eqb_refl. cbn [negb].
  destruct (max_element_spec head Hne) as (m & -> & Hm & _). rewrite bind_S. apply (csr_head _ _ _ Hc) in Hm. rewrite throw_if_then. destruct (Nat.leb_spec (length fo - 1) m) as [|_]; [lia|].
  rewrite throw_if_then. destruct (Nat.eqb_spec (length w) (length head)); cbn [negb]; by case_decide.
Qed.
Lemma check_graph_invalid fo head w : fo <> [] -> ~ csr (length fo - 1) fo head -> check_graph fo head w = Some Throw.
Proof. intros Hne H. unfold check_graph. by rewrite (check_invalid _ _ Hne H). Qed.
Lemma queries_fit n source target : fits32 n -> stored_queries n source target -> Forall fits32 source /\ Forall fits32 target.
Proof. unfold fits32. intros Hn (_ & _ & H1 & H2). split; (eapply Forall_impl; [eassumption|]); cbn; intros; lia. Qed.
Lemma run_dijkstra_spec fo tail head w source target : stored_graph fo tail head w -> head <> [] -> stored_queries (length fo - 1) source target ->
  (forall s, s ∈ source -> distances_below tail head w s) ->
  exists dist, run_dijkstra (id_file fo) (id_file head) (word_file w) (id_file source) (id_file target) = Some (Ret (word_file dist)) /\ answers tail head w source target dist.
Proof.
  intros [Hc Ht Hw Hn Hm Hww] Hne Hq Hb. destruct (csr_fits _ _ Hc Hn Hm) as [F1 F2]. destruct (queries_fit (length fo - 1) source target) as [F3 F4]; [unfold fits32 in *; lia|done|].
  destruct Hq as (Hs0 & Hlen & Hs & Htt). unfold run_dijkstra. rewrite (load_id_file fo F1), (load_id_file head F2), (load_word_file w Hww). cbn [andthen].
  rewrite (check_graph_tool fo tail head w Hc Ht Hne), decide_True by done. cbn [andthen]. rewrite (load_id_file source F3), (load_id_file target F4). cbn [andthen].
  rewrite throw_if_then. destruct (Nat.eqb_spec (length source) (length target)) as [_|]; [|done]. cbn [negb].
  destruct (dijkstra_queries_spec fo tail head w Hc Ht Hw (zip source target)) with (ss := @nil (nat * N)) (ord := @nil (nat * N)) (d := new_dijkstra (mkGraph fo tail head)) as (dist & E & Hd).
  - intros s t Hin. apply elem_of_list_lookup in Hin as (i & Hi). apply lookup_zip_with_Some in Hi as (s' & t' & [= <- <-] & Hi1 & Hi2). split_and!.
    + by apply (Forall_lookup_1 _ _ _ _ Hs Hi1).
    + by apply (Forall_lookup_1 _ _ _ _ Htt Hi2).
    + by eapply Hb, elem_of_list_lookup_2.
  - apply dinv_new; [exact Hc|apply weights_exist; exact Hw].
  - rewrite E, bind_S. unfold print_average. destruct (Nat.eqb_spec (length source) 0) as [E0|_]; [destruct source; done|]. cbn [negb chk]. rewrite bind_S.
    exists dist. split; [done|]. pose proof (Forall2_length _ _ _ Hd) as Hl. rewrite zip_with_length in Hl. split; [lia|]. intros i s t x H1 H2 H3.
    apply (Forall2_lookup_lr _ _ _ i (s, t) x Hd); [|done]. apply lookup_zip_with_Some. by exists s, t.
Qed.
