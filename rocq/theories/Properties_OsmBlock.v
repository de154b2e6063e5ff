(** C43: decoding of OSM blocks. *)
From Verif Require Import Base ProtobufModel ProtobufSpec ProtobufProofs TagMapModel TagMapSpec TagMapProofs OsmBlockModel OsmBlockSpec OsmBlockProofs.

(** A block in the format is decoded into the calls for its elements, in their order and
    with their tags, whatever the tag map contained before; elements nobody asked for
    are skipped. The offsets have to be zero unless no nodes are wanted, see below. *)
Theorem C43_block w bs h els tm : tm_wf tm -> block_message bs h -> block_elements w h els ->
  (offset_of_latitude h = 0%Z /\ offset_of_longitude h = 0%Z) \/ want_nodes w = false ->
  exists cs tm', decode_block w bs tm = Some (Ret (cs, tm')) /\ tm_wf tm' /\ Forall2 matches els cs.
Proof.
  intros Hw Hb (ls & Hls & ->) Hoff. unfold decode_block. rewrite (header_ok _ _ Hb), mb_ret. by apply groups_ok.
Qed.
Print Assumptions C43_block.
(** A node message with fields 19 and 20: offset of the axis + granularity * value. *)
Theorem C43_node h bs id lat lon tg tm : tm_wf tm -> node_message 19 20 h bs id lat lon tg ->
  exists cs tm', decode_sparse_node h bs tm = Some (Ret (cs, tm')) /\ tm_wf tm' /\ Forall2 matches [XNode id lat lon tg] cs.
Proof. apply node_ok. Qed.
Print Assumptions C43_node.
(** Dense nodes with arbitrary offsets: the offset of the latitude is added once per node, to both coordinates. *)
Theorem C43_dense_as_coded h bs ids lats lons tgs tm : tm_wf tm -> dense_message (string_table h) bs ids lats lons tgs ->
  exists cs tm', decode_dense_node h bs tm = Some (Ret (cs, tm')) /\ tm_wf tm' /\ Forall2 matches (dense_elements h 1 ids lats lons tgs) cs.
Proof. apply dense_ok. Qed.
Print Assumptions C43_dense_as_coded.
(** String ids of tags: below the table size the string, above it an exception, at the table size undefined. *)
Theorem C43_tag_string t i : tag_string t i =
  if decide (i < N.of_nat (length t))%N then Some (Ret (nth (N.to_nat i) t [])) else if decide (i = N.of_nat (length t)) then None else Some Throw.
Proof.
  unfold tag_string. case_decide as H.
  - rewrite !decide_False by lia. done.
  - destruct (decide (i < N.of_nat (length t))%N) as [Hi|Hi].
    + destruct (lookup_lt_is_Some_2 t (N.to_nat i)) as [s Hs]; [lia|]. rewrite Hs. cbn. by rewrite (nth_lookup_Some _ _ _ _ Hs).
    + rewrite decide_True by lia. rewrite lookup_ge_None_2 by lia. done.
Qed.
Print Assumptions C43_tag_string.

(** ** Concrete blocks *)
Definition enc_event (e : event) : list N :=
  match e with
  | EVarint id v => encode (8 * id) ++ encode v
  | EDouble id d => encode (8 * id + 1) ++ d
  | EFloat id d => encode (8 * id + 5) ++ d
  | EString id s => encode (8 * id + 2) ++ encode (N.of_nat (length s)) ++ s
  end.
Definition enc_message (es : list event) : list N := concat (enc_event <$> es).
Definition enc_ok (e : event) : bool :=
  match e with
  | EVarint id v => (8 * id <? 2 ^ 64)%N && (v <? 2 ^ 64)%N
  | EString id s => (8 * id + 2 <? 2 ^ 64)%N && (N.of_nat (length s) <? 2 ^ 64)%N
  | _ => false
  end.
Lemma enc_message_ok es : forallb enc_ok es = true -> message varint_of (enc_message es) es.
Proof.
  induction es as [|e es IH]; [constructor|]. cbn [forallb]. intros [He Hes]%andb_prop. unfold enc_message. cbn [fmap list_fmap concat]. apply message_cons; [|by apply IH].
  destruct e as [k v| | |k s]; cbn [enc_ok enc_event] in *; try done; apply andb_prop in He as [H1%N.ltb_lt H2%N.ltb_lt]; constructor; by apply encode_spec.
Qed.
Definition enc_packed (vs : list N) : list N := concat (encode <$> vs).
Lemma enc_packed_ok vs : forallb (fun v => v <? 2 ^ 64)%N vs = true -> packed (enc_packed vs) vs.
Proof. induction vs as [|v vs IH]; [constructor|]. cbn [forallb]. intros [H1%N.ltb_lt H2]%andb_prop. unfold enc_packed. cbn [fmap list_fmap concat]. constructor; [by apply encode_spec|by apply IH]. Qed.

(** Strings "" "a" "bc"; a group with two dense nodes, the second with tag bc=a, and a group with the
    way 7 over the nodes 10 and 9 with tag a=bc. *)
Definition ex_table : list cstring := [[]; [97]; [98; 99]]%N.
Definition ex_dense : list event := [EString 1 (enc_packed [20; 1]); EString 8 (enc_packed [10; 4]); EString 9 (enc_packed [6; 1]); EString 10 (enc_packed [0; 2; 1; 0])]%N.
Definition ex_way : list event := [EVarint 1 7; EString 2 (enc_packed [1]); EString 3 (enc_packed [2]); EString 8 (enc_packed [20; 1])]%N.
Definition ex_groups : list (list N) := [enc_message [EString 2 (enc_message ex_dense)]; enc_message [EString 3 (enc_message ex_way)]].
Definition ex_header : header := mkHeader 100 0 0 ex_table ex_groups.
Definition ex_block : list event := EString 1 (enc_message (EString 1 <$> ex_table)) :: (EString 2 <$> ex_groups).
Definition ex_els : list element := [XNode 10 500 300 []; XNode 9 700 200 [([98; 99], [97])]; XWay 7 [10; 9] [([97], [98; 99])]]%N.
Definition all : wanted := mkWanted true true true.
Lemma ex_header_ok : block_message (enc_message ex_block) ex_header.
Proof.
  exists ex_block, (enc_message (EString 1 <$> ex_table)). split; [by apply enc_message_ok|]. split; [reflexivity|]. split.
  - exists (EString 1 <$> ex_table). split; [by apply enc_message_ok|]. apply Forall2_fmap_l, Forall_Forall2_diag. apply (Forall_impl (fun s => 0%N ∉ s)); [apply (bool_decide_unpack _); by vm_compute|]. intros s Hs. by exists 1%N.
  - split; [reflexivity|]. split; [by right|]. split; by right.
Qed.
Lemma ex_els_ok : block_elements all ex_header ex_els.
Proof.
  exists [[XNode 10 500 300 []; XNode 9 700 200 [([98; 99], [97])]]; [XWay 7 [10; 9] [([97], [98; 99])]]]%N. split; [|reflexivity]. constructor; [|constructor; [|constructor]].
  - eexists _, [_]. split; [by apply enc_message_ok|]. split; [|by rewrite concat_cons, app_nil_r]. constructor; [|constructor].
    apply (item_dense _ _ _ [10; 9]%N [5; 7]%Z [3; 2]%Z [[]; [([98; 99], [97])]]%N); [done| |repeat constructor].
    exists ex_dense. eexists _, _, _, _, _, _. split; [by apply enc_message_ok|]. split; [reflexivity|]. split; [by apply enc_packed_ok|]. split; [by vm_compute|].
    split; [reflexivity|]. split; [by apply enc_packed_ok|]. split; [by vm_compute|]. split; [done|]. split; [reflexivity|]. split; [by apply enc_packed_ok|]. split; [by vm_compute|]. split; [done|].
    left. eexists _, [0; 2; 1; 0]%N. split; [reflexivity|]. split; [by apply enc_packed_ok|]. split; [|done].
    apply (dense_cons _ [] [] [] [2; 1; 0]%N); [constructor| |].
    + split; [constructor|]. split; [constructor|cbn; lia].
    + apply (dense_cons _ [2]%N [1]%N _ []); [by repeat constructor| |constructor]. split; [by repeat constructor|]. split; [by repeat constructor|cbn; lia].
  - eexists _, [_]. split; [by apply enc_message_ok|]. split; [|by rewrite concat_cons, app_nil_r]. constructor; [|constructor]. apply item_way; [done|].
    exists ex_way. eexists. split; [by apply enc_message_ok|]. split; [split; [reflexivity|done]|]. split.
    + exists [1]%N, [2]%N. split; [left; eexists; split; [reflexivity|by apply enc_packed_ok]|]. split; [left; eexists; split; [reflexivity|by apply enc_packed_ok]|].
      split; [by repeat constructor|]. split; [by repeat constructor|cbn; lia].
    + split; [left; eexists; split; [reflexivity|by apply enc_packed_ok]|]. by vm_compute.
Qed.
Example C43_ex : tm_wf (@tm_new cstring) /\ block_message (enc_message ex_block) ex_header /\ block_elements all ex_header ex_els /\
  length (enc_message ex_block) = 49.
Proof. split; [apply wf_new|]. split; [apply ex_header_ok|]. split; [apply ex_els_ok|reflexivity]. Qed.

(** ** Deviations *)
(** A tag whose key is the number of strings in the table passes the check and reads behind the table. *)
Theorem C43_string_id_refuted : exists bs, decode_block all bs tm_new = None.
Proof.
  exists (enc_message [EString 1 (enc_message (EString 1 <$> ex_table)); EString 2 (enc_message [EString 3 (enc_message [EVarint 1 7; EString 2 [3%N]; EString 3 [1%N]])])]).
  vm_compute. reflexivity.
Qed.
Print Assumptions C43_string_id_refuted.
(** With a latitude offset of 1000 nanodegrees, two dense nodes with the stored coordinates (0, 0) are not at (1000, 0): *)
Definition off_dense : list event := [EString 1 (enc_packed [20; 1]); EString 8 (enc_packed [0; 0]); EString 9 (enc_packed [0; 0])]%N.
Definition off_header : header := mkHeader 100 1000 0 ex_table [].
Definition positions (cs : list call) : list (Z * Z) := omap (fun c => match c with CNode _ la lo _ => Some (la, lo) | _ => None end) cs.
Theorem C43_dense_offset_refuted : exists bs, dense_message ex_table bs [10; 9]%N [0; 0]%Z [0; 0]%Z [[]; []] /\ position off_header 0 0 = (1000, 0)%Z /\
  exists cs tm, decode_dense_node off_header bs tm_new = Some (Ret (cs, tm)) /\ positions cs = [(1000, 1000); (2000, 2000)]%Z.
Proof.
  exists (enc_message off_dense). split; [|split; [reflexivity|]].
  - exists off_dense. eexists _, _, _, _, _, _. split; [by apply enc_message_ok|]. split; [reflexivity|]. split; [by apply enc_packed_ok|]. split; [by vm_compute|].
    split; [reflexivity|]. split; [by apply enc_packed_ok|]. split; [by vm_compute|]. split; [done|]. split; [reflexivity|]. split; [by apply enc_packed_ok|]. split; [by vm_compute|]. split; [done|]. by right.
  - destruct (decode_dense_node off_header (enc_message off_dense) tm_new) as [[[cs tm]|]|] eqn:E; [|vm_compute in E; discriminate..].
    exists cs, tm. split; [done|]. assert (cs = match decode_dense_node off_header (enc_message off_dense) tm_new with Some (Ret (cs, _)) => cs | _ => [] end) as -> by (by rewrite E). clear. vm_compute. reflexivity.
Qed.
Print Assumptions C43_dense_offset_refuted.
(** A node message with its coordinates in the fields of osmformat.proto (8 and 9) is reported at (0, 0). *)
Theorem C43_node_fields_refuted : exists bs, node_message 8 9 ex_header bs 7 500 300 [] /\
  exists cs tm, decode_sparse_node ex_header bs tm_new = Some (Ret (cs, tm)) /\ positions cs = [(0, 0)]%Z.
Proof.
  set (es := [EVarint 1 7; EVarint 8 10; EVarint 9 6]%N). exists (enc_message es). split.
  - exists es, 10%N, 6%N. split; [by apply enc_message_ok|]. split; [split; [reflexivity|done]|]. split.
    + exists [], []. split; [by right|]. split; [by right|]. split; [constructor|]. split; [constructor|cbn; lia].
    + split; [reflexivity|]. split; [reflexivity|]. reflexivity.
  - destruct (decode_sparse_node ex_header (enc_message es) tm_new) as [[[cs tm]|]|] eqn:E; [|vm_compute in E; discriminate..].
    exists cs, tm. split; [done|]. assert (cs = match decode_sparse_node ex_header (enc_message es) tm_new with Some (Ret (cs, _)) => cs | _ => [] end) as -> by (by rewrite E). clear. vm_compute. reflexivity.
Qed.
Print Assumptions C43_node_fields_refuted.
