(** C55 and C56: reading OSM files. *)
From Coq Require Import String.
From Verif Require Import Base ProtobufModel ProtobufSpec ProtobufProofs TagMapModel TagMapSpec TagMapProofs OsmBlockModel OsmBlockSpec OsmBlockProofs OsmFileModel OsmFileSpec OsmFileProofs Properties_OsmBlock.

(** * C55: blocks *)
(** The number in front of a header is read correctly: by the function of the system always, by the function of the code for headers
    within the limit of the format. *)
Theorem C55_byte_order_partial : (forall n, (n < 2 ^ 32)%N -> ntohl_system (load32 (be32 n)) = n) /\ (forall n, (n < header_limit)%N -> ntohl_own (load32 (be32 n)) = n).
Proof. split; [apply ntohl_system_be32|apply ntohl_own_be32]. Qed.
Print Assumptions C55_byte_order_partial.
Theorem C55_byte_order_refuted : exists n, (n < 2 ^ 32)%N /\ ntohl_own (load32 (be32 n)) <> n.
Proof. exists 65536%N. split; [done|]. vm_compute. discriminate. Qed.
Print Assumptions C55_byte_order_refuted.

Section C55.
Context (ntohl : N -> N) (inflate : list N -> N -> option (list N)) (unzips : list N -> list N -> Prop).
Hypothesis Hntohl : ntohl = ntohl_system \/ ntohl = ntohl_own.
(** zlib decompresses what fits into the buffer. *)
Hypothesis Hinflate : forall z bs n, unzips z bs -> (N.of_nat (length bs) <= n)%N -> inflate z n = Some bs.
Lemma ntohl_ok n : (n < 2 ^ 16)%N -> ntohl (load32 (be32 n)) = n.
Proof using Hntohl. intros Hn. destruct Hntohl as [-> | ->]; [apply ntohl_system_be32; by etransitivity|by apply ntohl_own_be32]. Qed.

(** The blocks of data of a file are handed on completely and in their order, each with its size in front. *)
Theorem C55_blocks_partial file fbs : file_of unzips file fbs -> Forall supported fbs -> header_first fbs ->
  exists ss, decompress_file ntohl inflate file = Some (ss, map (fun b => store32 (N.of_nat (length b)) ++ b) (data_of fbs), true).
Proof using Hntohl Hinflate.
  intros H1 H2 H3. destruct (decompress_file_ok ntohl inflate unzips ntohl_ok Hinflate file fbs H1 H2 H3) as (ss & E & _). by exists ss.
Qed.
Lemma data_limit file fbs : file_of unzips file fbs -> Forall (fun b => N.of_nat (length b) <= minimum_read_size)%N (data_of fbs).
Proof using.
  intros (ls & Hb & _). induction Hb as [|bs fb ls fbs Hb Hbs IH]; [constructor|]. destruct Hb as [| |]; try done. unfold data_of. cbn [omap list_omap]. constructor; [|done]. by apply limit_ok.
Qed.
(** The elements of all blocks reach the callbacks in the order of the file; those without a callback are left out. *)
Theorem C55_elements_partial seen w file fbs elss : file_of unzips file fbs -> Forall supported fbs -> header_first fbs -> Forall2 block_contains (data_of fbs) elss ->
  exists calls, unordered_read_osm_pbf ntohl inflate seen w file = Some (Ret calls) /\ Forall2 matches (List.filter (chosen w) (concat elss)) calls.
Proof using Hntohl Hinflate.
  intros H1 H2 H3 H4. destruct (C55_blocks_partial file fbs H1 H2 H3) as (ss & E). unfold unordered_read_osm_pbf. rewrite E. cbn [mbind option_bind]. unfold internal_read_osm_pbf.
  destruct (decode_stream_ok w (data_of fbs) elss tm_new _ H4 (data_limit _ _ H1) wf_new (Nat.lt_succ_diag_r _)) as (cs & tm & E2 & _ & Hm).
  unfold frame in E2. rewrite E2, mb_ret. by exists cs.
Qed.
(** A file that ends within a header or a block of data is refused, unless it ends within the first four bytes of the block. *)
Theorem C55_cut_partial seen w file fbs elss ty content bs k : file_of unzips file fbs -> Forall supported fbs -> header_first fbs -> Forall2 block_contains (data_of fbs) elss ->
  framed ty content bs -> ty = text "OSMData" \/ ty = text "OSMHeader" -> 4 <= k < length bs ->
  unordered_read_osm_pbf ntohl inflate seen w (file ++ take k bs) = Some Throw.
Proof using Hntohl Hinflate.
  intros H1 H2 H3 H4 Hf Hty Hk. destruct (decompress_cut ntohl inflate unzips ntohl_ok Hinflate file fbs ty content bs k H1 H2 H3 Hf Hty Hk) as (ss & E).
  unfold unordered_read_osm_pbf. rewrite E. cbn [mbind option_bind]. unfold internal_read_osm_pbf.
  assert (take seen (frame <$> data_of fbs) = map frame (take seen (data_of fbs))) as -> by (by rewrite <- fmap_take).
  destruct (decode_stream_ok w (take seen (data_of fbs)) (take seen elss) tm_new (S (length (concat (map frame (take seen (data_of fbs)))))) ) as (cs & tm & E2 & _ & _).
  - by apply Forall2_take.
  - apply Forall_take. by eapply data_limit.
  - apply wf_new.
  - lia.
  - by rewrite E2, mb_ret.
Qed.
(** What the code does with the rest: up to three bytes at the end are ignored. *)
Theorem C55_short_as_coded seen w file fbs elss rest : file_of unzips file fbs -> Forall supported fbs -> header_first fbs -> Forall2 block_contains (data_of fbs) elss -> length rest < 4 ->
  exists calls, unordered_read_osm_pbf ntohl inflate seen w (file ++ rest) = Some (Ret calls) /\ Forall2 matches (List.filter (chosen w) (concat elss)) calls.
Proof using Hntohl Hinflate.
  intros H1 H2 H3 H4 Hr. destruct (decompress_short ntohl inflate unzips ntohl_ok Hinflate file fbs rest H1 H2 H3 Hr) as (ss & E). unfold unordered_read_osm_pbf. rewrite E. cbn [mbind option_bind]. unfold internal_read_osm_pbf.
  destruct (decode_stream_ok w (data_of fbs) elss tm_new _ H4 (data_limit _ _ H1) wf_new (Nat.lt_succ_diag_r _)) as (cs & tm & E2 & _ & Hm).
  change (frame <$> data_of fbs) with (map frame (data_of fbs)). rewrite E2, mb_ret. by exists cs.
Qed.
End C55.
Print Assumptions C55_blocks_partial.
Print Assumptions C55_elements_partial.
Print Assumptions C55_cut_partial.
Print Assumptions C55_short_as_coded.

(** For all bytes, whatever zlib makes of them: a call never writes more than the buffer holds, and the size in front is that of the block. *)
Theorem C55_size : forall ntohl inflate file ss bs ok, decompress_file ntohl inflate file = Some (ss, bs, ok) ->
  Forall (fun b => exists block, b = store32 (N.of_nat (length block)) ++ block /\ (N.of_nat (length b) <= minimum_read_size)%N) bs.
Proof.
  intros ntohl inflate file ss bs ok (blocks & -> & Hb)%decompress_size. apply Forall_fmap. eapply Forall_impl; [exact Hb|]. intros b Hl. cbn beta in *. exists b. split; [done|].
  unfold compose. rewrite frame_len. unfold minimum_read_size in *. lia.
Qed.
Print Assumptions C55_size.
(** The blocks of any file are found or an exception is thrown, as long as the protobuf decoder is defined on its parts (see C36) and two
    names of features are not followed by a zero. *)
Theorem C55_defined_partial : forall ntohl inflate file, (forall p, part p file -> walk p <> None) ->
  ~ part (text "DenseNodes" ++ [0%N]) file -> ~ part (text "Sort.Type_then_ID" ++ [0%N]) file -> is_Some (decompress_file ntohl inflate file).
Proof. intros ntohl inflate file H1 H2 H3. apply (decompress_defined ntohl inflate file H1 H2 H3); [apply part_refl|lia]. Qed.
Print Assumptions C55_defined_partial.

(** ** Examples *)
(** A stand-in for zlib: a stream is a 120 and the data. *)
Definition toy_unzips (z bs : list N) : Prop := z = 120%N :: bs.
Definition toy_inflate (z : list N) (n : N) : option (list N) := match z with 120%N :: bs => if (N.of_nat (length bs) <=? n)%N then Some bs else None | _ => None end.
Lemma toy_ok z bs n : toy_unzips z bs -> (N.of_nat (length bs) <= n)%N -> toy_inflate z n = Some bs.
Proof. intros -> H. cbn. by rewrite (proj2 (N.leb_le _ _) H). Qed.
Definition enc_framed (ty content : list N) : list N :=
  let header := enc_message [EString 1 ty; EVarint 3 (N.of_nat (length content))] in be32 (N.of_nat (length header)) ++ header ++ content.
Lemma enc_framed_ok ty content : (N.of_nat (length (enc_message [EString 1 ty; EVarint 3 (N.of_nat (length content))])) <? header_limit)%N = true -> (N.of_nat (length ty) <? 2 ^ 64)%N = true ->
  (N.of_nat (length content) <=? content_limit)%N = true -> framed ty content (enc_framed ty content).
Proof.
  intros H1%N.ltb_lt H2 H3%N.leb_le. exists (enc_message [EString 1 ty; EVarint 3 (N.of_nat (length content))]), [EString 1 ty; EVarint 3 (N.of_nat (length content))]. split; [reflexivity|]. split; [done|]. split; [done|]. split; [|split; reflexivity].
  apply enc_message_ok. cbn [forallb enc_ok]. rewrite H2. cbn. rewrite !andb_true_r. apply N.ltb_lt. unfold content_limit in H3. change (2 ^ 25)%N with 33554432%N in H3. change (2 ^ 64)%N with 18446744073709551616%N. lia.
Qed.
Definition enc_header (required optional : list (list N)) : list N := enc_framed (text "OSMHeader") (enc_message ((EString 4 <$> required) ++ (EString 5 <$> optional))).
Definition enc_raw (block : list N) : list N := enc_framed (text "OSMData") (enc_message [EVarint 2 (N.of_nat (length block)); EString 1 block]).
Definition enc_zip (block : list N) : list N := enc_framed (text "OSMData") (enc_message [EString 3 (120%N :: block); EVarint 2 (N.of_nat (length block))]).
(** A header, a block of another type, a block of data, the same data compressed. *)
Definition ex_bytes : list N := enc_message ex_block.
Definition ex_file : list (list N) := [enc_header [text "DenseNodes"] [text "Has_Metadata"]; enc_framed (text "OSMThings") [1; 2; 3]%N; enc_raw ex_bytes; enc_zip ex_bytes].
Definition ex_fbs : list file_block := [BHeader [text "DenseNodes"] [text "Has_Metadata"]; BOther; BData true ex_bytes; BData true ex_bytes].
Lemma raw_ok : file_block_bytes toy_unzips (enc_raw ex_bytes) (BData true ex_bytes).
Proof.
  eapply fb_data; [by apply enc_framed_ok| |by vm_compute]. eapply blob_raw; [by apply enc_message_ok|reflexivity..].
Qed.
Lemma ex_file_ok : file_of toy_unzips (concat ex_file) ex_fbs /\ Forall supported ex_fbs /\ header_first ex_fbs.
Proof.
  split; [|split].
  - exists ex_file. split; [|done]. constructor; [|constructor; [|constructor; [|constructor; [|constructor]]]].
    + apply (fb_header _ (enc_message ([EString 4 (text "DenseNodes")] ++ [EString 5 (text "Has_Metadata")])) _ ([EString 4 (text "DenseNodes")] ++ [EString 5 (text "Has_Metadata")])); [by apply enc_framed_ok|by apply enc_message_ok].
    + apply (fb_other _ (text "OSMThings") [1; 2; 3]%N); [by apply enc_framed_ok|by apply (bool_decide_unpack _)|done|done].
    + apply raw_ok.
    + eapply fb_data; [by apply enc_framed_ok| |by vm_compute]. eapply blob_zip; [by apply enc_message_ok|reflexivity..].
  - repeat constructor. by apply (bool_decide_unpack _).
  - right. exists [], [text "DenseNodes"], [text "Has_Metadata"]. eexists. split; [reflexivity|]. split; [constructor|]. repeat constructor; cbn; tauto.
Qed.
Lemma ex_contains : Forall2 block_contains (data_of ex_fbs) [ex_els; ex_els].
Proof. repeat constructor; exists ex_header; (split; [apply ex_header_ok|]); (split; [apply ex_els_ok|done]). Qed.
Definition kind (c : call) : nat := match c with CNode _ _ _ _ => 1 | CWay _ _ _ => 2 | CRelation _ _ _ => 3 end.
Definition kinds (r : M (list call)) : option (list nat) := match r with Some (Ret cs) => Some (map kind cs) | _ => None end.
Example C55_ex : file_of toy_unzips (concat ex_file) ex_fbs /\ Forall supported ex_fbs /\ header_first ex_fbs /\ Forall2 block_contains (data_of ex_fbs) [ex_els; ex_els] /\
  kinds (unordered_read_osm_pbf ntohl_system toy_inflate 0 all (concat ex_file)) = Some [1; 1; 2; 1; 1; 2] /\
  unordered_read_osm_pbf ntohl_own toy_inflate 0 all (take 150 (concat ex_file)) = Some Throw /\
  (exists p, part p (concat ex_file) /\ walk p = Some (ex_block, true)).
Proof.
  destruct ex_file_ok as (H1 & H2 & H3). split; [done|]. split; [done|]. split; [done|]. split; [apply ex_contains|]. split; [vm_compute; reflexivity|]. split; [vm_compute; reflexivity|].
  exists ex_bytes. split; [|vm_compute; reflexivity]. exists (take 82 (concat ex_file)), (drop 131 (concat ex_file)). vm_compute. reflexivity.
Qed.

Lemma part_check (f : list N -> bool) l : forallb (fun i => forallb (fun n => f (take n (drop i l))) (seq 0 (S (length l)))) (seq 0 (S (length l))) = true -> forall p, part p l -> f p = true.
Proof.
  intros H p (a & b & ->). rewrite !app_length in H. rewrite forallb_forall in H. specialize (H (length a) ltac:(apply in_seq; lia)). cbn beta in H. rewrite forallb_forall in H.
  specialize (H (length p) ltac:(apply in_seq; lia)). cbn beta in H. by rewrite drop_app, take_app in H.
Qed.
Example C55_defined_ex : (forall p, part p (concat ex_file) -> walk p <> None) /\ ~ part (text "DenseNodes" ++ [0%N]) (concat ex_file) /\ ~ part (text "Sort.Type_then_ID" ++ [0%N]) (concat ex_file).
Proof.
  assert (forall p, part p (concat ex_file) -> bool_decide (is_Some (walk p)) && bool_decide (p <> text "DenseNodes" ++ [0%N]) && bool_decide (p <> text "Sort.Type_then_ID" ++ [0%N]) = true) as H.
  { apply (part_check (fun p => _)). vm_compute. reflexivity. }
  split; [|split].
  - intros p [[Hp _]%andb_prop _]%H%andb_prop E. apply bool_decide_eq_true in Hp. rewrite E in Hp. by destruct Hp.
  - intros [[_ Hp]%andb_prop _]%H%andb_prop. by apply bool_decide_eq_true in Hp.
  - intros [_ Hp]%H%andb_prop. by apply bool_decide_eq_true in Hp.
Qed.

(** ** Deviations *)
(** The header that every program writes for the current version of the format is refused: the feature OsmSchema-V0.6 is not known. *)
Definition std_header : list N := enc_header [text "OsmSchema-V0.6"; text "DenseNodes"] [].
Definition std_fbs : list file_block := [BHeader [text "OsmSchema-V0.6"; text "DenseNodes"] []; BData true ex_bytes].
Lemma std_ok : file_of toy_unzips (std_header ++ enc_raw ex_bytes) std_fbs.
Proof.
  exists [std_header; enc_raw ex_bytes]. split; [|by rewrite concat_cons, concat_cons, app_nil_r]. constructor; [|constructor; [apply raw_ok|constructor]].
  apply (fb_header _ (enc_message ([EString 4 (text "OsmSchema-V0.6"); EString 4 (text "DenseNodes")] ++ [])) _ ([EString 4 (text "OsmSchema-V0.6"); EString 4 (text "DenseNodes")] ++ [])); [by apply enc_framed_ok|by apply enc_message_ok].
Qed.
Theorem C55_features_refuted : exists file fbs, file_of toy_unzips file fbs /\ header_first fbs /\ Forall2 block_contains (data_of fbs) [ex_els] /\
  (forall r o f, BHeader r o ∈ fbs -> f ∈ r -> f = text "OsmSchema-V0.6" \/ f = text "DenseNodes") /\
  unordered_read_osm_pbf ntohl_system toy_inflate 0 all file = Some Throw.
Proof.
  exists (std_header ++ enc_raw ex_bytes), std_fbs. split; [apply std_ok|]. split.
  { right. eexists [], _, _, _. split; [reflexivity|]. split; [constructor|]. repeat constructor; cbn; tauto. }
  split. { repeat constructor; exists ex_header; (split; [apply ex_header_ok|]); (split; [apply ex_els_ok|done]). }
  split.
  { intros r o f [H|[H|H]%elem_of_cons]%elem_of_cons Hf; [|done|by apply elem_of_nil in H]. injection H as -> ->. apply elem_of_cons in Hf as [Hf|Hf%elem_of_list_singleton]; tauto. }
  vm_compute. reflexivity.
Qed.
Print Assumptions C55_features_refuted.
(** The size of data that is not compressed is optional in the format; without it the file is refused. *)
Theorem C55_unsized_refuted : exists file, file_of toy_unzips file [BData false ex_bytes] /\ block_contains ex_bytes ex_els /\
  unordered_read_osm_pbf ntohl_system toy_inflate 0 all file = Some Throw.
Proof.
  exists (enc_framed (text "OSMData") (enc_message [EString 1 ex_bytes])). split.
  { exists [enc_framed (text "OSMData") (enc_message [EString 1 ex_bytes])]. split; [|by rewrite concat_cons, app_nil_r]. constructor; [|constructor].
    eapply fb_data; [by apply enc_framed_ok| |by vm_compute]. eapply blob_raw; [by apply enc_message_ok|reflexivity..]. }
  split; [|vm_compute; reflexivity]. exists ex_header. split; [apply ex_header_ok|]. by split; [apply ex_els_ok|].
Qed.
Print Assumptions C55_unsized_refuted.
(** A file that is cut within a block of an unknown type is not refused: the content of that block is read as if it were blocks. *)
Theorem C55_cut_refuted : exists file k, file_of toy_unzips file [BOther] /\ k < length file /\ kinds (unordered_read_osm_pbf ntohl_system toy_inflate 0 all (take k file)) = Some [1; 1; 2].
Proof.
  exists (enc_framed (text "OSMThings") (enc_raw ex_bytes ++ [0%N])), (length (enc_framed (text "OSMThings") (enc_raw ex_bytes ++ [0%N])) - 1). split.
  { exists [enc_framed (text "OSMThings") (enc_raw ex_bytes ++ [0%N])]. split; [|by rewrite concat_cons, app_nil_r]. constructor; [|constructor].
    apply (fb_other _ (text "OSMThings") (enc_raw ex_bytes ++ [0%N])); [by apply enc_framed_ok|by apply (bool_decide_unpack _)|done|done]. }
  split; [vm_compute; lia|]. vm_compute. reflexivity.
Qed.
Print Assumptions C55_cut_refuted.
(** A feature whose name continues after a zero: the comparison reads behind the literal. *)
Theorem C55_defined_refuted : exists file f, file_of toy_unzips file [BHeader [f] []] /\ decompress_file ntohl_system toy_inflate file = None.
Proof.
  exists (enc_header [text "DenseNodes" ++ [0; 1]%N] []), (text "DenseNodes" ++ [0; 1]%N). split; [|vm_compute; reflexivity].
  exists [enc_header [text "DenseNodes" ++ [0; 1]%N] []]. split; [|by rewrite concat_cons, app_nil_r]. constructor; [|constructor].
  apply (fb_header _ (enc_message ([EString 4 (text "DenseNodes" ++ [0; 1]%N)] ++ [])) _ ([EString 4 (text "DenseNodes" ++ [0; 1]%N)] ++ [])); [by apply enc_framed_ok|by apply enc_message_ok].
Qed.
Print Assumptions C55_defined_refuted.

(** * C56: the order of the elements *)
(** Once the status can be seen at all, it does not matter when the reading thread looks at it; for all files. *)
Theorem C56_race : forall ntohl inflate seen pick pick' w file_is_ordered file,
  ordered_read_osm_pbf ntohl inflate seen pick w file_is_ordered file = ordered_read_osm_pbf ntohl inflate seen pick' w file_is_ordered file.
Proof.
  intros ntohl inflate seen pick pick' w forced file. unfold ordered_read_osm_pbf. destruct (decompress_file ntohl inflate file) as [[[ss blocks] ok]|] eqn:E; [|done]. cbn [mbind option_bind].
  apply decompress_file_known in E as [sorted Hss]. destruct forced; [done|]. set (l := List.filter _ ss).
  assert (forall n, (s ← l !! (n `min` (length l - 1)); Some (has_bit s is_ordered_bit)) = if decide (l = []) then None else Some sorted) as H.
  { intros n. destruct (decide (l = [])) as [-> |Hl]; [by rewrite lookup_nil|]. assert (0 < length l) as Hlen by (destruct l; [done|cbn; lia]).
    destruct (lookup_lt_is_Some_2 l (n `min` (length l - 1))) as [s Hs]; [lia|]. rewrite Hs. cbn [mbind option_bind]. f_equal. apply elem_of_list_lookup_2 in Hs. unfold l in Hs. apply elem_of_list_In, filter_In in Hs as [Hs _].
    rewrite Forall_forall in Hss. apply elem_of_list_In in Hs. by apply Hss in Hs as [_ Hs]. }
  by rewrite !H.
Qed.
Print Assumptions C56_race.

(** No other optional feature is taken for the one that says that the file is sorted. *)
Definition names_whole (fbs : list file_block) : Prop :=
  forall r o f, BHeader r o ∈ fbs -> f ∈ o -> f `prefix_of` text "Sort.Type_then_ID" -> f = text "Sort.Type_then_ID".
Lemma counted_spec fbs : names_whole fbs -> counted fbs = true <-> says_sorted fbs.
Proof.
  intros Hw. unfold counted, says_sorted. rewrite existsb_exists. split.
  - intros (fb & Hin%elem_of_list_In & Hfb). destruct fb as [r o| |]; try done. exists r, o. split; [done|]. unfold counts_as_sorted in Hfb. apply existsb_exists in Hfb as (f & Hf%elem_of_list_In & Hp%bool_decide_eq_true).
    by rewrite <- (Hw r o f Hin Hf Hp).
  - intros (r & o & Hin & Ho). exists (BHeader r o). split; [by apply elem_of_list_In|]. unfold counts_as_sorted. apply existsb_exists. exists (text "Sort.Type_then_ID"). split; [by apply elem_of_list_In|]. by apply bool_decide_eq_true.
Qed.
Lemma chosen_filter w els :
  List.filter (chosen w) (by_kind els) =
    (if want_nodes w then List.filter is_xnode els else []) ++ (if want_ways w then List.filter is_xway els else []) ++ (if want_relations w then List.filter is_xrelation els else []).
Proof.
  assert (forall (f g : element -> bool) (b : bool), (forall x, g x = true -> f x = b) -> List.filter f (List.filter g els) = if b then List.filter g els else []) as H.
  { intros f g b Hfg. induction els as [|x l IH]; [by destruct b|]. cbn [List.filter]. destruct (g x) eqn:Eg; [|done]. cbn [List.filter]. rewrite (Hfg x Eg), IH. by destruct b. }
  unfold by_kind. rewrite !List.filter_app. f_equal; [|f_equal]; apply H; by intros [].
Qed.
Lemma filter_ext' (f g : element -> bool) l : (forall x, f x = g x) -> List.filter f l = List.filter g l.
Proof. intros H. induction l as [|x l IH]; [done|]. cbn. by rewrite H, IH. Qed.

Section C56.
Context (ntohl : N -> N) (inflate : list N -> N -> option (list N)) (unzips : list N -> list N -> Prop).
Hypothesis Hntohl : ntohl = ntohl_system \/ ntohl = ntohl_own.
Hypothesis Hinflate : forall z bs n, unzips z bs -> (N.of_nat (length bs) <= n)%N -> inflate z n = Some bs.

Lemma internal_ok seen w file fbs elss : file_of unzips file fbs -> Forall2 block_contains (data_of fbs) elss ->
  exists calls, internal_read_osm_pbf seen w (frame <$> data_of fbs) true = Some (Ret calls) /\ Forall2 matches (List.filter (chosen w) (concat elss)) calls.
Proof using.
  intros H1 H4. unfold internal_read_osm_pbf. destruct (decode_stream_ok w (data_of fbs) elss tm_new _ H4 (data_limit _ _ _ H1) wf_new (Nat.lt_succ_diag_r _)) as (cs & tm & E2 & _ & Hm).
  change (frame <$> data_of fbs) with (map frame (data_of fbs)). rewrite E2, mb_ret. by exists cs.
Qed.
(** If the file says that it is sorted, or the caller says so, the elements come in the order of the file; else first the nodes, then
    the ways, then the relations. *)
Theorem C56_order_partial seen pick w forced file fbs elss : file_of unzips file fbs -> Forall supported fbs -> header_first fbs -> Forall2 block_contains (data_of fbs) elss ->
  names_whole fbs -> forced = true \/ Exists (fun fb => ~ is_other fb) fbs ->
  exists calls, ordered_read_osm_pbf ntohl inflate seen pick w forced file = Some (Ret calls) /\
    (forced = true \/ says_sorted fbs -> Forall2 matches (List.filter (chosen w) (concat elss)) calls) /\
    (forced = false /\ ~ says_sorted fbs -> Forall2 matches (List.filter (chosen w) (by_kind (concat elss))) calls).
Proof using Hntohl Hinflate.
  intros H1 H2 H3 H4 Hw Hne. destruct (decompress_file_ok ntohl inflate unzips (ntohl_ok ntohl Hntohl) Hinflate file fbs H1 H2 H3) as (ss & E & Hss & Hne'). pose proof (counted_spec fbs Hw) as Hc.
  unfold ordered_read_osm_pbf. rewrite E, bind_S. cbv beta iota.
  assert (exists b : bool, (if forced then Some true else
     s ← List.filter (fun s => has_bit s is_header_info_available_bit) ss !! (pick `min` (length (List.filter (fun s => has_bit s is_header_info_available_bit) ss) - 1)); Some (has_bit s is_ordered_bit)) = Some b /\ (forced = true \/ says_sorted fbs -> b = true) /\ (forced = false /\ ~ says_sorted fbs -> b = false)) as (b & -> & Hb1 & Hb2).
  { destruct forced; [exists true; split; [done|split; [done|by intros [? _]]]|]. destruct Hne as [?|Hne]; [done|]. specialize (Hne' Hne). exists (counted fbs). split.
    - assert (List.filter (fun s => has_bit s is_header_info_available_bit) ss = ss) as ->.
      { clear -Hss. induction Hss as [|s ss [Hs _] Hss IH]; [done|]. cbn. rewrite Hs. by f_equal. }
      assert (0 < length ss) by (destruct ss; [done|cbn; lia]). destruct (lookup_lt_is_Some_2 ss (pick `min` (length ss - 1))) as [s Hs]; [lia|]. rewrite Hs. cbn [mbind option_bind]. f_equal.
      rewrite Forall_forall in Hss. apply elem_of_list_lookup_2 in Hs. by apply Hss in Hs as [_ Hs].
    - split; [intros [?|H]; [done|by apply Hc]|]. intros [_ H]. destruct (counted fbs); [|done]. exfalso. apply H. by apply Hc. }
  rewrite bind_S. destruct b.
  - destruct (internal_ok seen w file fbs elss H1 H4) as (cs & Ecs & Hcs). exists cs. split; [done|]. split; [done|]. intros H. by apply Hb2 in H.
  - destruct (internal_ok seen (mkWanted true false false) file fbs elss H1 H4) as (ns & Ens & Hns).
    destruct (internal_ok seen (mkWanted false true false) file fbs elss H1 H4) as (ws & Ews & Hws).
    destruct (internal_ok seen (mkWanted false false true) file fbs elss H1 H4) as (rs & Ers & Hrs).
    rewrite (filter_ext' (chosen (mkWanted true false false)) is_xnode) in Hns by (by intros []). rewrite (filter_ext' (chosen (mkWanted false true false)) is_xway) in Hws by (by intros []).
    rewrite (filter_ext' (chosen (mkWanted false false true)) is_xrelation) in Hrs by (by intros []).
    cbv zeta. rewrite Ens, Ews, Ers. exists ((if want_nodes w then ns else []) ++ (if want_ways w then ws else []) ++ (if want_relations w then rs else [])).
    split; [by destruct (want_nodes w), (want_ways w), (want_relations w)|]. split; [intros H; by apply Hb1 in H|]. intros _. rewrite chosen_filter.
    apply Forall2_app; [by destruct (want_nodes w)|]. apply Forall2_app; [by destruct (want_ways w)|by destruct (want_relations w)].
Qed.
End C56.
Print Assumptions C56_order_partial.

(** A file whose ways come before its nodes. *)
Definition rev_groups : list (list N) := rev ex_groups.
Definition rev_header : header := mkHeader 100 0 0 ex_table rev_groups.
Definition rev_block : list event := EString 1 (enc_message (EString 1 <$> ex_table)) :: (EString 2 <$> rev_groups).
Definition rev_els : list element := [XWay 7 [10; 9] [([97], [98; 99])]; XNode 10 500 300 []; XNode 9 700 200 [([98; 99], [97])]]%N.
Lemma group_rev w g els : group_elements w ex_header g els -> group_elements w rev_header g els.
Proof.
  intros (es & ls & Hm & Hi & He). exists es, ls. split; [done|]. split; [|done]. apply (Forall2_impl (item w ex_header)); [done|]. clear. intros e l H. destruct H; econstructor; eassumption || done.
Qed.
Lemma rev_contains : block_contains (enc_message rev_block) rev_els.
Proof.
  exists rev_header. split; [|split; [|done]].
  - exists rev_block, (enc_message (EString 1 <$> ex_table)). split; [by apply enc_message_ok|]. split; [reflexivity|]. split.
    + exists (EString 1 <$> ex_table). split; [by apply enc_message_ok|]. apply Forall2_fmap_l, Forall_Forall2_diag. apply (Forall_impl (fun s => 0%N ∉ s)); [apply (bool_decide_unpack _); by vm_compute|]. intros s Hs. by exists 1%N.
    + split; [reflexivity|]. split; [by right|]. split; by right.
  - destruct ex_els_ok as (ls & Hls & E). inversion Hls as [|g1 l1 gs1 ls1 Hg1 Hls1 Ea Eb]; subst. inversion Hls1 as [|g2 l2 gs2 ls2 Hg2 Hls2 Ec Ed]; subst. inversion Hls2; subst.
    exists [[XWay 7 [10; 9] [([97], [98; 99])]]; [XNode 10 500 300 []; XNode 9 700 200 [([98; 99], [97])]]]%N. split; [|done].
    assert (l1 = [XNode 10 500 300 []; XNode 9 700 200 [([98; 99], [97])]]%N /\ l2 = [XWay 7 [10; 9] [([97], [98; 99])]]%N) as [-> ->].
    { unfold ex_els in E. cbn [concat] in E. rewrite app_nil_r in E. destruct Hg2 as (es & ls' & Hm & Hi & ->). 
      pose proof (enc_message_ok [EString 3 (enc_message ex_way)] eq_refl) as Hm'.
      apply events_ok in Hm, Hm'. rewrite Hm in Hm'. injection Hm' as ->. inversion Hi as [|e l es' ls'' Hie Hi' E1 E2]; subst. inversion Hi'; subst. cbn [concat] in E. rewrite app_nil_r in E.
      cbn [concat]. rewrite app_nil_r.
      inversion Hie as [| |s id nodes tg H1 H2| |k s H1 H2 H3|]; subst; [|by specialize (H2 eq_refl)|by destruct (H 3%N (enc_message ex_way))].
      destruct l1 as [|x [|y [|z [|? l1]]]]; by simplify_eq/=. }
    constructor; [apply group_rev, Hg2|]. constructor; [apply group_rev, Hg1|constructor].
Qed.
Definition rev_file (optional : list (list N)) : list N := enc_header [text "DenseNodes"] optional ++ enc_raw (enc_message rev_block).
Definition rev_fbs (optional : list (list N)) : list file_block := [BHeader [text "DenseNodes"] optional; BData true (enc_message rev_block)].
Lemma rev_ok f : f = text "Has_Metadata" \/ f = text "Sort.Type_then_ID" \/ f = text "Sort" -> file_of toy_unzips (rev_file [f]) (rev_fbs [f]) /\ Forall supported (rev_fbs [f]) /\ header_first (rev_fbs [f]).
Proof.
  intros Hf. split; [|split].
  - exists [enc_header [text "DenseNodes"] [f]; enc_raw (enc_message rev_block)]. split; [|by rewrite concat_cons, concat_cons, app_nil_r]. constructor; [|constructor; [|constructor]].
    + apply (fb_header _ (enc_message ([EString 4 (text "DenseNodes")] ++ [EString 5 f])) _ ([EString 4 (text "DenseNodes")] ++ [EString 5 f])); destruct Hf as [-> |[-> | ->]]; [by apply enc_framed_ok..|by apply enc_message_ok|by apply enc_message_ok|by apply enc_message_ok].
    + eapply fb_data; [by apply enc_framed_ok| |by vm_compute]. eapply blob_raw; [by apply enc_message_ok|reflexivity..].
  - repeat constructor. destruct Hf as [-> |[-> | ->]]; by apply (bool_decide_unpack _).
  - right. exists [], [text "DenseNodes"], [f]. eexists. split; [reflexivity|]. split; [constructor|]. repeat constructor; cbn; tauto.
Qed.
Lemma rev_says f : says_sorted (rev_fbs [f]) <-> f = text "Sort.Type_then_ID".
Proof.
  split.
  - intros (r & o & [H|[H|H]%elem_of_cons]%elem_of_cons & Ho); [|done|by apply elem_of_nil in H]. injection H as -> ->. by apply elem_of_list_singleton in Ho.
  - intros ->. exists [text "DenseNodes"], [text "Sort.Type_then_ID"]. split; apply elem_of_cons; by left.
Qed.
Definition nodes_and_ways : wanted := mkWanted true true false.
Example C56_ex : (forall f, f = text "Has_Metadata" \/ f = text "Sort.Type_then_ID" -> file_of toy_unzips (rev_file [f]) (rev_fbs [f]) /\ Forall supported (rev_fbs [f]) /\ header_first (rev_fbs [f]) /\
    Forall2 block_contains (data_of (rev_fbs [f])) [rev_els] /\ names_whole (rev_fbs [f]) /\ Exists (fun fb => ~ is_other fb) (rev_fbs [f])) /\
  ~ says_sorted (rev_fbs [text "Has_Metadata"]) /\ says_sorted (rev_fbs [text "Sort.Type_then_ID"]) /\
  kinds (ordered_read_osm_pbf ntohl_system toy_inflate 0 0 nodes_and_ways false (rev_file [text "Has_Metadata"])) = Some [1; 1; 2] /\
  kinds (ordered_read_osm_pbf ntohl_system toy_inflate 0 0 nodes_and_ways false (rev_file [text "Sort.Type_then_ID"])) = Some [2; 1; 1] /\
  kinds (ordered_read_osm_pbf ntohl_system toy_inflate 0 0 nodes_and_ways true (rev_file [text "Has_Metadata"])) = Some [2; 1; 1].
Proof.
  split; [|split; [|split; [|split; [|split]]]]; [| | |vm_compute; reflexivity..].
  - intros f Hf. destruct (rev_ok f) as (H1 & H2 & H3); [tauto|]. split; [done|]. split; [done|]. split; [done|]. split; [constructor; [apply rev_contains|constructor]|]. split; [|apply Exists_cons_hd; cbn; tauto].
    intros r o g [H|[H|H]%elem_of_cons]%elem_of_cons Hg Hp; [|done|by apply elem_of_nil in H]. injection H as -> ->. apply elem_of_list_singleton in Hg as ->. destruct Hf as [-> | ->]; [|done]. exfalso. revert Hp. apply (bool_decide_unpack _). by vm_compute.
  - rewrite rev_says. done.
  - by rewrite rev_says.
Qed.

(** ** Deviations *)
(** A feature whose name is the beginning of the name of the order is taken for it: the ways come before the nodes. *)
Theorem C56_prefix_refuted : exists file fbs, file_of toy_unzips file fbs /\ Forall supported fbs /\ header_first fbs /\ Forall2 block_contains (data_of fbs) [rev_els] /\ ~ says_sorted fbs /\
  kinds (ordered_read_osm_pbf ntohl_system toy_inflate 0 0 nodes_and_ways false file) = Some [2; 1; 1].
Proof.
  exists (rev_file [text "Sort"]), (rev_fbs [text "Sort"]). destruct (rev_ok (text "Sort")) as (H1 & H2 & H3); [tauto|]. split; [done|]. split; [done|]. split; [done|].
  split; [constructor; [apply rev_contains|constructor]|]. split; [by rewrite rev_says|]. vm_compute. reflexivity.
Qed.
Print Assumptions C56_prefix_refuted.
(** ordered_read_osm_pbf waits for ever for the header of an empty file, and if the header asks for something that is not supported. *)
Theorem C56_waits_refuted : exists file file' fbs', file_of toy_unzips file [] /\ file_of toy_unzips file' fbs' /\ (exists r o, BHeader r o ∈ fbs') /\
  forall seen pick w, ordered_read_osm_pbf ntohl_system toy_inflate seen pick w false file = None /\ ordered_read_osm_pbf ntohl_system toy_inflate seen pick w false file' = None.
Proof.
  exists [], (std_header ++ enc_raw ex_bytes), std_fbs. split; [by exists []|]. split; [apply std_ok|]. split; [eexists _, _; by left|]. intros seen pick w.
  split; unfold ordered_read_osm_pbf.
  - reflexivity.
  - assert (decompress_file ntohl_system toy_inflate (std_header ++ enc_raw ex_bytes) = Some ([], [], false)) as -> by (vm_compute; reflexivity). cbn. by rewrite lookup_nil.
Qed.
Print Assumptions C56_waits_refuted.
