(** The decoder of OSM blocks reports what the block contains. *)
From Verif Require Import Base CchCustomizeProofs ProtobufModel ProtobufSpec ProtobufProofs TagMapModel TagMapSpec TagMapProofs OsmBlockModel OsmBlockSpec.
Ltac Zify.zify_post_hook ::= Z.div_mod_to_equations.

Lemma mb_ret {A B} (a : A) (f : A -> M B) : mb (ret a) f = f a.
Proof. done. Qed.
Lemma events_ok bs es : message varint_of bs es -> message_events bs = ret es.
Proof.
  intros H. unfold message_events. unfold walk. rewrite (walk_complete (length bs) bs es); [done|done|]. by apply (message_mono varint_of), H; intros; apply varint_of_read.
Qed.
Lemma last_varint_1 k es v : varints k es = [v] -> last_varint k es = Some v.
Proof. unfold varints, last_varint. by intros ->. Qed.
Lemma last_varint_0 k es : varints k es = [] -> last_varint k es = None.
Proof. unfold varints, last_varint. by intros ->. Qed.
Lemma last_string_1 k es v : payloads k es = [v] -> last_string k es = Some v.
Proof. unfold payloads, last_string. by intros ->. Qed.
Lemma last_string_0 k es : payloads k es = [] -> last_string k es = None.
Proof. unfold payloads, last_string. by intros ->. Qed.
Lemma packed_default k es vs : packed_field k es vs -> packed (default [] (last_string k es)) vs.
Proof. intros [(b & Hb & Hp)|[Hb ->]]; [by rewrite (last_string_1 _ _ _ Hb)|]. rewrite (last_string_0 _ _ Hb). constructor. Qed.

Lemma decode_cons c v bs : varint_of c v -> decode_varint (c ++ bs) = ret (v, bs).
Proof. intros H. by apply decode_read, varint_of_read. Qed.
Lemma varint_nonempty c v : varint_of c v -> c <> [].
Proof. intros H. by eapply read_nonempty, varint_of_read. Qed.
Lemma packed_inv_nil vs : packed [] vs -> vs = [].
Proof. intros H. inversion H as [|c v bs vs' Hc Hp E]; [done|]. apply app_eq_nil in E as [-> _]. by apply varint_nonempty in Hc. Qed.
Lemma packed_inv_cons bs v vs : packed bs (v :: vs) -> exists c r, bs = c ++ r /\ c <> [] /\ varint_of c v /\ packed r vs.
Proof. intros H. inversion H as [|c v' bs' vs' Hc Hp E]; subst. exists c, bs'. split; [done|]. split; [by eapply varint_nonempty|done]. Qed.
Lemma packed_inv_end bs : packed bs [] -> bs = [].
Proof. intros H. by inversion H. Qed.
Lemma packed_len bs vs : packed bs vs -> length vs <= length bs.
Proof. induction 1 as [|c v bs vs Hc Hp IH]; [done|]. rewrite app_length. cbn. apply varint_nonempty in Hc. destruct c; [done|]. cbn. lia. Qed.
Lemma app_nonnil {A} (c r : list A) : c <> [] -> exists x y, c ++ r = x :: y.
Proof. destruct c as [|x c]; [done|]. intros _. by exists x, (c ++ r). Qed.

Lemma key_value_ok fuel kb vb ks vs : packed kb ks -> packed vb vs -> length ks = length vs -> length ks <= fuel -> key_value_loop fuel kb vb = ret (ks, vs, [], []).
Proof.
  revert kb vb vs fuel. induction ks as [|k ks IH]; intros kb vb vs fuel Hk Hv Hl Hf.
  - destruct vs; [|done]. apply packed_inv_end in Hk as ->. apply packed_inv_end in Hv as ->. by destruct fuel.
  - destruct vs as [|v vs]; [done|]. destruct fuel as [|fuel]; [cbn in Hf; lia|].
    apply packed_inv_cons in Hk as (c & r & -> & Hc & Hcv & Hr). apply packed_inv_cons in Hv as (c' & r' & -> & Hc' & Hcv' & Hr').
    cbn [key_value_loop]. destruct (app_nonnil c r Hc) as (x & y & E). destruct (app_nonnil c' r' Hc') as (x' & y' & E'). rewrite E, E'. rewrite <- E, <- E'.
    rewrite (decode_cons _ _ _ Hcv). rewrite mb_ret. cbv beta iota. rewrite (decode_cons _ _ _ Hcv'). rewrite mb_ret. cbv beta iota. rewrite (IH r r' vs fuel); [done|done|done| |]; cbn in *; lia.
Qed.
Lemma names_ok t is ss : names t is ss -> mapR (tag_string t) is = ret ss.
Proof.
  induction 1 as [|i s is ss Hi Hn IH]; [done|]. cbn [mapR]. unfold tag_string at 1. pose proof (lookup_lt_Some _ _ _ Hi) as Hlt.
  rewrite decide_False by lia. rewrite Hi. rewrite bind_S. rewrite mb_ret, IH. done.
Qed.

(** What is seen of a tag map. *)
Definition shows (tm : tagmap cstring) (tg : tags) : Prop := forall key, tm_lookup tm key = Some (first_value tg key).
Definition matches (el : element) (c : call) : Prop :=
  match el, c with
  | XNode id lat lon tg, CNode id' lat' lon' tm => id' = id /\ lat' = lat /\ lon' = lon /\ shows tm tg
  | XWay id ns tg, CWay id' ns' tm => id' = id /\ ns' = ns /\ shows tm tg
  | XRelation id ms tg, CRelation id' ms' tm => id' = id /\ ms' = ms /\ shows tm tg
  | _, _ => False
  end.

Lemma zip_fst_snd {A B} (l : list (A * B)) : zip l.*1 l.*2 = l.
Proof. induction l as [|[a b] l IH]; [done|]. cbn. by rewrite IH. Qed.
Lemma build_tags_ok t ks vs tg tm : tm_wf tm -> tags_of t ks vs tg -> exists tm', build_tags t ks vs tm = ret tm' /\ tm_wf tm' /\ shows tm' tg.
Proof.
  intros Hw (Hk & Hv & Hl). unfold build_tags. rewrite (names_ok _ _ _ Hk), mb_ret, (names_ok _ _ _ Hv), mb_ret. rewrite zip_fst_snd.
  destruct (build_spec tm tg Hw Hl) as (tm' & -> & Hw' & Hs & _). rewrite bind_S. by exists tm'.
Qed.
Lemma tags_len t ks vs tg : tags_of t ks vs tg -> length ks = length tg /\ length vs = length tg.
Proof. intros (Hk & Hv & _). apply Forall2_length in Hk, Hv. rewrite fmap_length in Hk, Hv. done. Qed.
Lemma read_tags_ok t es tg tm : tm_wf tm -> tag_fields t es tg -> exists tm', read_tags t es tm = ret tm' /\ tm_wf tm' /\ shows tm' tg.
Proof.
  intros Hw (ks & vs & Hk & Hv & Ht). apply packed_default in Hk, Hv. destruct (tags_len _ _ _ _ Ht) as [Hlk Hlv]. unfold read_tags.
  rewrite (key_value_ok _ _ _ ks vs Hk Hv) by (try (apply packed_len in Hk); lia). rewrite mb_ret. cbv beta iota. rewrite decide_False by tauto. by apply build_tags_ok.
Qed.

Lemma add_delta_ok prev id x : (id < 2 ^ 64)%N -> (Z.of_N id mod 2 ^ 64 = (Z.of_N prev + zigzag x) mod 2 ^ 64)%Z -> add_delta prev x = id.
Proof. intros H E. unfold add_delta. rewrite <- E. rewrite Z.mod_small by lia. lia. Qed.
Lemma delta_ok fuel bs prev ids xs : packed bs xs -> id_deltas prev ids xs -> length xs <= fuel -> delta_list fuel bs prev = ret ids.
Proof.
  revert bs prev ids fuel. induction xs as [|x xs IH]; intros bs prev ids fuel Hp Hd Hf.
  - apply packed_inv_end in Hp as ->. destruct ids; [|done]. by destruct fuel.
  - destruct ids as [|id ids]; [done|]. destruct Hd as (Hid & E & Hd). destruct fuel as [|fuel]; [cbn in Hf; lia|].
    apply packed_inv_cons in Hp as (c & r & -> & Hc & Hcv & Hr). cbn [delta_list]. destruct (app_nonnil c r Hc) as (a & b & Eab). rewrite Eab, <- Eab.
    rewrite (decode_cons _ _ _ Hcv), mb_ret. cbv beta iota zeta. rewrite (add_delta_ok _ _ _ Hid E). rewrite (IH r id ids fuel); [done|done|done|cbn in Hf; lia].
Qed.
Lemma member_ok fuel t ib rb tb prev ms xs rs : packed ib xs -> id_deltas prev (ms.*1).*2 xs -> packed rb rs -> names t rs ms.*2 -> packed tb (type_code <$> (ms.*1).*1) ->
  length xs <= fuel -> member_loop fuel t ib rb tb prev = ret ms.
Proof.
  revert ib rb tb prev xs rs fuel. induction ms as [|[[ty id] role] ms IH]; intros ib rb tb prev xs rs fuel Hi Hd Hr Hn Ht Hf.
  - destruct xs; [|done]. apply packed_inv_end in Hi as ->. by destruct fuel.
  - cbn in Hd, Hn, Ht. destruct xs as [|x xs]; [done|]. destruct Hd as (Hid & E & Hd). destruct fuel as [|fuel]; [cbn in Hf; lia|].
    inversion Hn as [|r0 role0 rs0 roles Hrole Hn' E1 E2]; subst.
    apply packed_inv_cons in Hi as (c & r & -> & Hc & Hcv & Hr1). apply packed_inv_cons in Hr as (c2 & r2 & -> & Hc2 & Hcv2 & Hr2). apply packed_inv_cons in Ht as (c3 & r3 & -> & Hc3 & Hcv3 & Hr3).
    cbn [member_loop]. destruct (app_nonnil c r Hc) as (a & b & Eab). rewrite Eab, <- Eab.
    rewrite (decode_cons _ _ _ Hcv), mb_ret. cbv beta iota zeta. rewrite (decode_cons _ _ _ Hcv2), mb_ret. cbv beta iota. pose proof (lookup_lt_Some _ _ _ Hrole) as Hlt.
    rewrite decide_False by lia. rewrite Hrole, bind_S. rewrite (decode_cons _ _ _ Hcv3), mb_ret. cbv beta iota.
    assert (match type_code ty with 0%N => ret MNode | 1%N => ret MWay | 2%N => ret MRelation | _ => throw end = ret ty) as -> by (by destruct ty). rewrite mb_ret.
    rewrite (add_delta_ok _ _ _ Hid E). rewrite (IH r r2 r3 id xs rs0 fuel); [done|done|done|done|done|done|cbn in Hf; lia].
Qed.

Lemma packed_app bs xs ys : packed bs (xs ++ ys) -> exists b1 b2, bs = b1 ++ b2 /\ packed b1 xs /\ packed b2 ys.
Proof.
  revert bs. induction xs as [|x xs IH]; intros bs H.
  - exists [], bs. split; [done|]. split; [constructor|done].
  - apply packed_inv_cons in H as (c & r & -> & _ & Hc & Hr). destruct (IH r Hr) as (b1 & b2 & -> & H1 & H2). exists (c ++ b1), b2. split; [by rewrite app_assoc|]. split; [by constructor|done].
Qed.
Lemma dense_tags_ok fuel bs ks vs rest xs : Forall (fun k => k <> 0%N) ks -> length ks = length vs -> packed bs (concat (zip_with (fun k v => [k; v]) ks vs) ++ 0%N :: xs) ->
  length ks <= fuel -> packed rest xs \/ True -> exists r, dense_tags fuel bs = ret (ks, vs, r) /\ packed r xs.
Proof.
  intros Hk Hl Hp Hf _. revert bs vs fuel Hl Hp Hf. induction ks as [|k ks IH]; intros bs vs fuel Hl Hp Hf.
  - destruct vs; [|done]. cbn in Hp. apply packed_inv_cons in Hp as (c & r & -> & Hc & Hcv & Hr). exists r. split; [|done].
    destruct fuel; cbn [dense_tags]; rewrite (decode_cons _ _ _ Hcv), mb_ret; cbv beta iota; by rewrite decide_True.
  - destruct vs as [|v vs]; [done|]. destruct fuel as [|fuel]; [cbn in Hf; lia|]. cbn in Hp. apply Forall_cons in Hk as [Hk0 Hk].
    apply packed_inv_cons in Hp as (c & r & -> & Hc & Hcv & Hr). apply packed_inv_cons in Hr as (c2 & r2 & -> & Hc2 & Hcv2 & Hr2).
    destruct (IH Hk r2 vs fuel) as (q & Hq & Hpq); [cbn in Hl; lia|done|cbn in Hf; lia|]. exists q. split; [|done].
    cbn [dense_tags]. rewrite (decode_cons _ _ _ Hcv), mb_ret. cbv beta iota. rewrite decide_False by done. rewrite (decode_cons _ _ _ Hcv2), mb_ret. cbv beta iota. rewrite Hq, mb_ret. done.
Qed.

(** The positions the code computes for dense nodes: the latitude offset is added once per node, to both coordinates. *)
Fixpoint dense_positions (h : header) (n : Z) (lats lons : list Z) : list (Z * Z) :=
  match lats, lons with
  | lat :: lats, lon :: lons =>
      ((n * offset_of_latitude h + Z.of_N (granularity h) * lat)%Z, (n * offset_of_latitude h + Z.of_N (granularity h) * lon)%Z) :: dense_positions h (n + 1) lats lons
  | _, _ => []
  end.
Definition dense_elements (h : header) (n : Z) (ids : list N) (lats lons : list Z) (tgs : list tags) : list element :=
  (fun '(id, (la, lo), tg) => XNode id la lo tg) <$> zip (zip ids (dense_positions h n lats lons)) tgs.

Lemma zip_cons {A B} (a : A) (b : B) l k : zip (a :: l) (b :: k) = (a, b) :: zip l k.
Proof. done. Qed.
Lemma dense_loop_ok fuel h ib latb lonb kvb prev la lo n lat lon tm ids lats lons tgs xs ys zs :
  tm_wf tm -> packed ib xs -> id_deltas prev ids xs -> packed latb ys -> deltas la lats ys -> packed lonb zs -> deltas lo lons zs ->
  length ys = length xs -> length zs = length xs -> length xs <= fuel ->
  lat = (n * offset_of_latitude h + Z.of_N (granularity h) * la)%Z -> lon = (n * offset_of_latitude h + Z.of_N (granularity h) * lo)%Z ->
  match kvb with
  | Some b => exists kvs, packed b kvs /\ dense_tag_list (string_table h) kvs tgs /\ length tgs = length xs
  | None => tgs = replicate (length xs) [] /\ shows tm []
  end ->
  exists cs kvb' tm', dense_loop fuel h ib latb lonb kvb prev lat lon tm = ret (cs, [], [], kvb', tm') /\ default [] kvb' = [] /\ tm_wf tm' /\
    Forall2 matches (dense_elements h (n + 1) ids lats lons tgs) cs.
Proof.
  revert ib latb lonb kvb prev la lo n lat lon tm ids lats lons tgs ys zs fuel.
  induction xs as [|x xs IH]; intros ib latb lonb kvb prev la lo n lat lon tm ids lats lons tgs ys zs fuel Hw Hi Hid Hla Hlad Hlo Hlod Hly Hlz Hf Elat Elon Hkv.
  - destruct ys; [|done]. destruct zs; [|done]. destruct ids; [|done]. destruct lats; [|done]. destruct lons; [|done].
    apply packed_inv_end in Hi as ->. apply packed_inv_end in Hla as ->. apply packed_inv_end in Hlo as ->. exists [], kvb, tm.
    split; [by destruct fuel|]. split; [|split; [done|constructor]]. destruct kvb as [b|]; [|done]. destruct Hkv as (kvs & Hp & Hd & Hl). destruct tgs; [|done]. inversion Hd; subst.
    by apply packed_inv_end in Hp as ->.
  - destruct ys as [|y ys]; [done|]. destruct zs as [|z zs]; [done|]. destruct ids as [|id ids]; [done|]. destruct lats as [|lat1 lats]; [done|]. destruct lons as [|lon1 lons]; [done|].
    destruct Hid as (Hid0 & Eid & Hid). destruct Hlad as [El1 Hlad]. destruct Hlod as [Eo1 Hlod]. destruct fuel as [|fuel]; [cbn in Hf; lia|].
    apply packed_inv_cons in Hi as (c & r & -> & Hc & Hcv & Hr). apply packed_inv_cons in Hla as (c2 & r2 & -> & Hc2 & Hcv2 & Hr2). apply packed_inv_cons in Hlo as (c3 & r3 & -> & Hc3 & Hcv3 & Hr3).
    cbn [dense_loop]. destruct (app_nonnil c r Hc) as (a & b & Eab). rewrite Eab, <- Eab.
    rewrite (decode_cons _ _ _ Hcv), mb_ret. cbv beta iota zeta. rewrite (decode_cons _ _ _ Hcv2), mb_ret. cbv beta iota zeta. rewrite (decode_cons _ _ _ Hcv3), mb_ret. cbv beta iota zeta.
    rewrite (add_delta_ok _ _ _ Hid0 Eid). unfold primblock_lon_offset.
    set (lat' := (lat + (offset_of_latitude h + Z.of_N (granularity h) * zigzag y))%Z). set (lon' := (lon + (offset_of_latitude h + Z.of_N (granularity h) * zigzag z))%Z).
    assert (lat' = ((n + 1) * offset_of_latitude h + Z.of_N (granularity h) * lat1)%Z) as El' by (unfold lat'; rewrite El1, Elat; ring).
    assert (lon' = ((n + 1) * offset_of_latitude h + Z.of_N (granularity h) * lon1)%Z) as Eo' by (unfold lon'; rewrite Eo1, Elon; ring).
    assert (exists tg tgs' tm1 kvb1, tgs = tg :: tgs' /\ tm_wf tm1 /\ shows tm1 tg /\
      match kvb with None => ret (tm, None) | Some b0 => mb (dense_tags (length b0) b0) (fun '(ks, vs, b1) => mb (build_tags (string_table h) ks vs tm) (fun tm => ret (tm, Some b1))) end = ret (tm1, kvb1) /\
      match kvb1 with
      | Some b => exists kvs, packed b kvs /\ dense_tag_list (string_table h) kvs tgs' /\ length tgs' = length xs
      | None => tgs' = replicate (length xs) [] /\ shows tm1 []
      end) as (tg & tgs' & tm1 & kvb1 & -> & Hw1 & Hs1 & -> & Hkv1).
    { destruct kvb as [b0|].
      - destruct Hkv as (kvs & Hp & Hd & Hl). inversion Hd as [|ks vs tg xs' tgs' Hk0 Htg Hd' E1 E2]; subst; [done|]. destruct (tags_len _ _ _ _ Htg) as [Hlk Hlv].
        destruct (dense_tags_ok (length b0) b0 ks vs [] xs') as (r' & Er & Hr'); [done|lia|done| |by right|].
        { apply packed_len in Hp. rewrite app_length in Hp. assert (length ks <= length (concat (zip_with (fun k v => [k; v]) ks vs))) as Hz; [|lia].
          assert (length ks = length vs) as Hkv2 by lia. clear -Hkv2. revert vs Hkv2. induction ks as [|k ks IH]; intros [|v vs] H; cbn in *; try lia. specialize (IH vs ltac:(lia)). lia. }
        destruct (build_tags_ok (string_table h) ks vs tg tm Hw Htg) as (tm1 & Eb & Hw1 & Hs1). exists tg, tgs', tm1, (Some r'). rewrite Er, mb_ret. cbv beta iota. rewrite Eb, mb_ret.
        split; [done|]. split; [done|]. split; [done|]. split; [done|]. exists xs'. split; [done|]. split; [done|]. cbn in Hl. lia.
      - destruct Hkv as [-> Hs]. exists [], (replicate (length xs) []), tm, None. done. }
    rewrite mb_ret. cbv beta iota.
    destruct (IH r r2 r3 kvb1 id lat1 lon1 (n + 1)%Z lat' lon' tm1 ids lats lons tgs' ys zs fuel) as (cs & kvb' & tm' & E & Hk' & Hw' & Hm); [done..|cbn in *; lia|cbn in *; lia|cbn in *; lia|done|done|done|].
    rewrite E, mb_ret. cbv beta iota. eexists _, kvb', tm'. split; [done|]. split; [done|]. split; [done|].
    unfold dense_elements. cbn [dense_positions]. rewrite !zip_cons, fmap_cons. constructor; [|exact Hm]. cbn [matches]. split; [done|]. split; [done|]. done.
Qed.

(** ** Messages *)
Definition reports (r : M (list call * tagmap cstring)) (els : list element) : Prop := exists cs tm, r = ret (cs, tm) /\ tm_wf tm /\ Forall2 matches els cs.

Lemma way_ok h bs id nodes tg tm : tm_wf tm -> way_message (string_table h) bs id nodes tg -> reports (decode_way h bs tm) [XWay id nodes tg].
Proof.
  intros Hw (es & xs & Hm & [Hid Hne] & Ht & Hp & Hd). unfold decode_way. rewrite (events_ok _ _ Hm), mb_ret. rewrite (last_varint_1 _ _ _ Hid). cbn [from_option Datatypes.id]. rewrite decide_False by done.
  destruct (read_tags_ok _ _ _ tm Hw Ht) as (tm' & -> & Hw' & Hs). rewrite mb_ret. apply packed_default in Hp.
  rewrite (delta_ok _ _ _ nodes xs Hp Hd) by (by apply packed_len). rewrite mb_ret. eexists _, tm'. split; [done|]. split; [done|]. by repeat constructor.
Qed.
Lemma relation_ok h bs id ms tg tm : tm_wf tm -> relation_message (string_table h) bs id ms tg -> reports (decode_relation h bs tm) [XRelation id ms tg].
Proof.
  intros Hw (es & xs & rs & Hm & [Hid Hne] & Ht & Hr & Hn & Hp & Hd & Hty). unfold decode_relation. rewrite (events_ok _ _ Hm), mb_ret. rewrite (last_varint_1 _ _ _ Hid). cbn [from_option Datatypes.id]. rewrite decide_False by done.
  destruct (read_tags_ok _ _ _ tm Hw Ht) as (tm' & -> & Hw' & Hs). rewrite mb_ret. apply packed_default in Hp, Hr, Hty.
  rewrite (member_ok _ _ _ _ _ _ ms xs rs Hp Hd Hr Hn Hty) by (by apply packed_len). rewrite mb_ret. eexists _, tm'. split; [done|]. split; [done|]. by repeat constructor.
Qed.
Lemma node_ok h bs id lat lon tg tm : tm_wf tm -> node_message 19 20 h bs id lat lon tg -> reports (decode_sparse_node h bs tm) [XNode id lat lon tg].
Proof.
  intros Hw (es & x & y & Hm & [Hid Hne] & Ht & Hx & Hy & E). unfold decode_sparse_node. rewrite (events_ok _ _ Hm), mb_ret. rewrite (last_varint_1 _ _ _ Hid), (last_varint_1 _ _ _ Hx), (last_varint_1 _ _ _ Hy).
  cbn [from_option Datatypes.id]. rewrite decide_False by done. destruct (read_tags_ok _ _ _ tm Hw Ht) as (tm' & -> & Hw' & Hs). rewrite mb_ret. eexists _, tm'. split; [done|]. split; [done|].
  unfold position in E. injection E as -> ->. constructor; [|constructor]. split; [done|]. split; [done|]. split; done.
Qed.
Lemma dense_ok h bs ids lats lons tgs tm : tm_wf tm -> dense_message (string_table h) bs ids lats lons tgs -> reports (decode_dense_node h bs tm) (dense_elements h 1 ids lats lons tgs).
Proof.
  intros Hw (es & ib & latb & lonb & xs & ys & zs & Hm & Hi & Hpi & Hdi & Hla & Hpla & Hdla & Hly & Hlo & Hplo & Hdlo & Hlz & Hkv).
  unfold decode_dense_node. rewrite (events_ok _ _ Hm), mb_ret. rewrite (last_string_1 _ _ _ Hi), (last_string_1 _ _ _ Hla), (last_string_1 _ _ _ Hlo).
  destruct (tm_clear tm) as [tm0|] eqn:Ec; [|by rewrite (clear_spec tm Hw) in Ec]. rewrite bind_S. destruct (wf_clear tm tm0 Hw Ec) as (Hw0 & Hs0 & _).
  destruct (dense_loop_ok (length ib) h ib latb lonb (last_string 10 es) 0 0 0 0 0 0 tm0 ids lats lons tgs xs ys zs) as (cs & kvb' & tm' & -> & Hk' & Hw' & Hmt); [done..| | | | |].
  - by apply packed_len.
  - lia.
  - lia.
  - destruct Hkv as [(kvb & kvs & Hk & Hp & Hd & Hl)|[Hk ->]].
    + rewrite (last_string_1 _ _ _ Hk). by exists kvs.
    + rewrite (last_string_0 _ _ Hk). split; [done|]. intros key. rewrite Hs0. done.
  - rewrite mb_ret. cbv beta iota. rewrite Hk'. rewrite decide_False by tauto. by exists cs, tm'.
Qed.
Lemma dense_zero h n ids lats lons tgs els : offset_of_latitude h = 0%Z -> offset_of_longitude h = 0%Z ->
  Forall2 (fun '(id, (lat, lon), tg) el => let '(la, lo) := position h lat lon in el = XNode id la lo tg) (zip (zip ids (zip lats lons)) tgs) els ->
  els = dense_elements h n ids lats lons tgs.
Proof.
  intros H1 H2. revert n lats lons tgs els. unfold dense_elements. induction ids as [|id ids IH]; intros n lats lons tgs els H.
  - cbn in H. by inversion H.
  - destruct lats as [|lat lats]; [by inversion H|]. destruct lons as [|lon lons]; [by inversion H|]. destruct tgs as [|tg tgs]; [by inversion H|].
    cbn [dense_positions]. rewrite !zip_cons in *. apply Forall2_cons_inv_l in H as (el & els' & Hel & Hels & ->). rewrite fmap_cons. f_equal; [|by apply IH].
    unfold position in Hel. rewrite Hel. rewrite H1, H2. f_equal; lia.
Qed.
Lemma group_ok w h es ls tm : tm_wf tm -> (offset_of_latitude h = 0%Z /\ offset_of_longitude h = 0%Z) \/ want_nodes w = false ->
  Forall2 (item w h) es ls -> reports (decode_group w h es tm) (concat ls).
Proof.
  intros Hw Hoff H. revert tm Hw. induction H as [|e els es ls He Hes IH]; intros tm Hw; cbn [decode_group concat].
  - exists [], tm. split; [done|]. split; [done|constructor].
  - assert (reports (match e with
        | EString id s =>
            if bool_decide (id = 1%N) && want_nodes w then decode_sparse_node h s tm
            else if bool_decide (id = 2%N) && want_nodes w then decode_dense_node h s tm
            else if bool_decide (id = 3%N) && want_ways w then decode_way h s tm
            else if bool_decide (id = 4%N) && want_relations w then decode_relation h s tm
            else ret ([], tm)
        | _ => ret ([], tm)
        end) els) as (cs & tm1 & -> & Hw1 & Hm).
    { destruct He as [s id lat lon tg Hwant Hmsg|s ids lats lons tgs els Hwant Hmsg Hels|s id nodes tg Hwant Hmsg|s id ms tg Hwant Hmsg|k s H1 H2 H3|e Hother].
      - rewrite Hwant. by apply node_ok.
      - rewrite Hwant. destruct Hoff as [[H1 H2]|Hoff]; [|congruence]. rewrite (dense_zero h 1 _ _ _ _ _ H1 H2 Hels). by apply dense_ok.
      - rewrite Hwant. by apply way_ok.
      - rewrite Hwant. by apply relation_ok.
      - assert (reports (ret ([], tm)) []) as Hnil by (exists [], tm; split; [done|split; [done|constructor]]).
        repeat case_bool_decide; subst; cbn [andb]; rewrite ?H1, ?H2, ?H3 by tauto; done.
      - assert (reports (ret ([], tm)) []) as Hnil by (exists [], tm; split; [done|split; [done|constructor]]).
        destruct e as [| | |k s]; try done. by destruct (Hother k s). }
    rewrite mb_ret. cbv beta iota. destruct (IH tm1 Hw1) as (cs2 & tm2 & -> & Hw2 & Hm2). rewrite mb_ret. exists (cs ++ cs2), tm2. split; [done|]. split; [done|]. by apply Forall2_app.
Qed.
Lemma groups_ok w h gs ls tm : tm_wf tm -> (offset_of_latitude h = 0%Z /\ offset_of_longitude h = 0%Z) \/ want_nodes w = false ->
  Forall2 (group_elements w h) gs ls -> reports (decode_groups w h gs tm) (concat ls).
Proof.
  intros Hw Hoff H. revert tm Hw. induction H as [|g els gs ls (es & ls1 & Hm & Hi & ->) Hes IH]; intros tm Hw; cbn [decode_groups concat].
  - exists [], tm. split; [done|]. split; [done|constructor].
  - rewrite (events_ok _ _ Hm), mb_ret. destruct (group_ok w h es ls1 tm Hw Hoff Hi) as (cs & tm1 & -> & Hw1 & Hm1). rewrite mb_ret. cbv beta iota.
    destruct (IH tm1 Hw1) as (cs2 & tm2 & -> & Hw2 & Hm2). rewrite mb_ret. exists (cs ++ cs2), tm2. split; [done|]. split; [done|]. by apply Forall2_app.
Qed.
Lemma c_str_id s : 0%N ∉ s -> c_str s = s.
Proof. induction s as [|b s IH]; intros H; [done|]. cbn. rewrite decide_False by (intros ->; apply H; constructor). f_equal. apply IH. intros Hs. apply H. by constructor. Qed.
Lemma table_ok bs t : table_message bs t -> table_of bs = ret t.
Proof.
  intros (es & Hm & H). unfold table_of. rewrite (events_ok _ _ Hm), mb_ret. unfold ret. do 2 f_equal. clear Hm. induction H as [|e s es t (k & -> & Hs) _ IH]; [done|]. cbn. rewrite c_str_id by done. by rewrite IH.
Qed.
Lemma tables_0 es : payloads 1 es = [] -> tables es = ret [].
Proof. unfold payloads. induction es as [|e es IH]; [done|]. destruct e as [| | |k s]; cbn [omap list_omap tables]; try (intros H; apply IH, H). case_decide as Hd; [done|]. intros H. apply IH, H. Qed.
Lemma tables_1 es tb t : payloads 1 es = [tb] -> table_of tb = ret t -> tables es = ret t.
Proof.
  unfold payloads. induction es as [|e es IH]; [done|]. intros H Ht. destruct e as [| | |k s]; cbn [omap list_omap tables] in *; try (by apply IH). case_decide; [|by apply IH].
  injection H as -> H. rewrite Ht, mb_ret. rewrite (tables_0 es) by done. rewrite mb_ret. by rewrite app_nil_r.
Qed.
Lemma header_ok bs h : block_message bs h -> read_header bs = ret h.
Proof.
  intros (es & tb & Hm & Htb & Ht & Hg & Hgr & Hla & Hlo). unfold read_header. rewrite (events_ok _ _ Hm), mb_ret. rewrite (tables_1 es tb (string_table h) Htb (table_ok _ _ Ht)), mb_ret.
  assert (default 100%N (last_varint 17 es) = granularity h) as ->. { destruct Hgr as [[H _]|[H ->]]; [by rewrite (last_varint_1 _ _ _ H)|by rewrite (last_varint_0 _ _ H)]. }
  assert (from_option zigzag 0%Z (last_varint 19 es) = offset_of_latitude h) as ->. { destruct Hla as [(x & H & ->)|[H ->]]; [by rewrite (last_varint_1 _ _ _ H)|by rewrite (last_varint_0 _ _ H)]. }
  assert (from_option zigzag 0%Z (last_varint 20 es) = offset_of_longitude h) as ->. { destruct Hlo as [(x & H & ->)|[H ->]]; [by rewrite (last_varint_1 _ _ _ H)|by rewrite (last_varint_0 _ _ H)]. }
  rewrite decide_False by (destruct Hgr as [[_ H]|[_ ->]]; done). unfold payloads in Hg. rewrite Hg. by destruct h.
Qed.
