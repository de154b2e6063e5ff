(** What a block of OSM data in the PBF format contains.

    The messages are given by their fields ([message varint_of], ProtobufSpec), in any order and
    with any further fields. The field numbers are those of the format (osmformat.proto) except
    for the coordinates of a node that is not in a dense group, see [node_message]. *)
From Verif Require Import Base ProtobufModel ProtobufSpec TagMapModel OsmBlockModel.

Notation tags := (list (cstring * cstring)).
Inductive element :=
| XNode (id : N) (lat lon : Z) (t : tags)
| XWay (id : N) (nodes : list N) (t : tags)
| XRelation (id : N) (members : list (member_type * N * cstring)) (t : tags).

(** All values of a field. *)
Definition varints (k : N) (es : list event) : list N :=
  omap (fun e => match e with EVarint id v => if decide (id = k) then Some v else None | _ => None end) es.
Definition payloads (k : N) (es : list event) : list (list N) :=
  omap (fun e => match e with EString id s => if decide (id = k) then Some s else None | _ => None end) es.

(** A packed list of numbers; an empty list may be left out. *)
Inductive packed : list N -> list N -> Prop :=
| packed_nil : packed [] []
| packed_cons c v bs vs : varint_of c v -> packed bs vs -> packed (c ++ bs) (v :: vs).
Definition packed_field (k : N) (es : list event) (vs : list N) : Prop :=
  (exists b, payloads k es = [b] /\ packed b vs) \/ (payloads k es = [] /\ vs = []).

(** 64-bit ids stored as differences, modulo 2^64. *)
Fixpoint id_deltas (prev : N) (ids xs : list N) : Prop :=
  match ids, xs with
  | [], [] => True
  | id :: ids, x :: xs => (id < 2 ^ 64)%N /\ (Z.of_N id mod 2 ^ 64 = (Z.of_N prev + zigzag x) mod 2 ^ 64)%Z /\ id_deltas id ids xs
  | _, _ => False
  end.
(** Coordinates stored as differences. *)
Fixpoint deltas (prev : Z) (vs : list Z) (xs : list N) : Prop :=
  match vs, xs with
  | [], [] => True
  | v :: vs, x :: xs => v = (prev + zigzag x)%Z /\ deltas v vs xs
  | _, _ => False
  end.

(** Tags: indices into the string table. *)
Definition names (t : list cstring) (is : list N) (ss : list cstring) : Prop := Forall2 (fun i s => t !! N.to_nat i = Some s) is ss.
Definition tags_of (t : list cstring) (ks vs : list N) (tg : tags) : Prop := names t ks tg.*1 /\ names t vs tg.*2 /\ length tg <= N.to_nat 65536.
Definition tag_fields (t : list cstring) (es : list event) (tg : tags) : Prop :=
  exists ks vs, packed_field 2 es ks /\ packed_field 3 es vs /\ tags_of t ks vs tg.
Definition object_id (es : list event) (id : N) : Prop := varints 1 es = [id] /\ id <> (2 ^ 64 - 1)%N.

Definition way_message (t : list cstring) (bs : list N) (id : N) (nodes : list N) (tg : tags) : Prop :=
  exists es xs, message varint_of bs es /\ object_id es id /\ tag_fields t es tg /\ packed_field 8 es xs /\ id_deltas 0 nodes xs.
Definition type_code (ty : member_type) : N := match ty with MNode => 0 | MWay => 1 | MRelation => 2 end.
Definition relation_message (t : list cstring) (bs : list N) (id : N) (ms : list (member_type * N * cstring)) (tg : tags) : Prop :=
  exists es xs rs, message varint_of bs es /\ object_id es id /\ tag_fields t es tg /\
    packed_field 8 es rs /\ names t rs ms.*2 /\ packed_field 9 es xs /\ id_deltas 0 (ms.*1).*2 xs /\ packed_field 10 es (type_code <$> (ms.*1).*1).

(** A position: offset of the axis + granularity * stored value, in nanodegrees. *)
Definition position (h : header) (lat lon : Z) : Z * Z :=
  ((offset_of_latitude h + Z.of_N (granularity h) * lat)%Z, (offset_of_longitude h + Z.of_N (granularity h) * lon)%Z).
(** A single node. The decoder expects the coordinates in fields 19 and 20; osmformat.proto has 8 and 9. *)
Definition node_message (lat_field lon_field : N) (h : header) (bs : list N) (id : N) (lat lon : Z) (tg : tags) : Prop :=
  exists es x y, message varint_of bs es /\ object_id es id /\ tag_fields (string_table h) es tg /\
    varints lat_field es = [x] /\ varints lon_field es = [y] /\ (lat, lon) = position h (zigzag x) (zigzag y).

(** Keys and values of dense nodes: pairs of string numbers, each node ended by 0. *)
Inductive dense_tag_list (t : list cstring) : list N -> list tags -> Prop :=
| dense_nil : dense_tag_list t [] []
| dense_cons ks vs tg xs tgs : Forall (fun k => k <> 0%N) ks -> tags_of t ks vs tg -> dense_tag_list t xs tgs ->
    dense_tag_list t (concat (zip_with (fun k v => [k; v]) ks vs) ++ 0%N :: xs) (tg :: tgs).
(** Dense nodes; [lats] and [lons] are the stored values after adding up the differences. *)
Definition dense_message (t : list cstring) (bs : list N) (ids : list N) (lats lons : list Z) (tgs : list tags) : Prop :=
  exists es ib latb lonb xs ys zs, message varint_of bs es /\
    payloads 1 es = [ib] /\ packed ib xs /\ id_deltas 0 ids xs /\
    payloads 8 es = [latb] /\ packed latb ys /\ deltas 0 lats ys /\ length ys = length xs /\
    payloads 9 es = [lonb] /\ packed lonb zs /\ deltas 0 lons zs /\ length zs = length xs /\
    ((exists kvb kvs, payloads 10 es = [kvb] /\ packed kvb kvs /\ dense_tag_list t kvs tgs /\ length tgs = length xs) \/
     (payloads 10 es = [] /\ tgs = replicate (length xs) [])).

(** ** Blocks *)
Definition table_message (bs : list N) (t : list cstring) : Prop :=
  exists es, message varint_of bs es /\ Forall2 (fun e s => exists k, e = EString k s /\ 0%N ∉ s) es t.
Definition block_message (bs : list N) (h : header) : Prop :=
  exists es tb, message varint_of bs es /\ payloads 1 es = [tb] /\ table_message tb (string_table h) /\ payloads 2 es = groups h /\
    ((varints 17 es = [granularity h] /\ granularity h <> 0%N) \/ (varints 17 es = [] /\ granularity h = 100%N)) /\
    ((exists x, varints 19 es = [x] /\ offset_of_latitude h = zigzag x) \/ (varints 19 es = [] /\ offset_of_latitude h = 0%Z)) /\
    ((exists x, varints 20 es = [x] /\ offset_of_longitude h = zigzag x) \/ (varints 20 es = [] /\ offset_of_longitude h = 0%Z)).

(** What an element of a group stands for. *)
Inductive item (w : wanted) (h : header) : event -> list element -> Prop :=
| item_node s id lat lon tg : want_nodes w = true -> node_message 19 20 h s id lat lon tg -> item w h (EString 1 s) [XNode id lat lon tg]
| item_dense s ids lats lons tgs els : want_nodes w = true -> dense_message (string_table h) s ids lats lons tgs ->
    Forall2 (fun '(id, (lat, lon), tg) el => let '(la, lo) := position h lat lon in el = XNode id la lo tg) (zip (zip ids (zip lats lons)) tgs) els ->
    item w h (EString 2 s) els
| item_way s id nodes tg : want_ways w = true -> way_message (string_table h) s id nodes tg -> item w h (EString 3 s) [XWay id nodes tg]
| item_relation s id ms tg : want_relations w = true -> relation_message (string_table h) s id ms tg -> item w h (EString 4 s) [XRelation id ms tg]
| item_unwanted k s : (k = 1%N \/ k = 2%N -> want_nodes w = false) -> (k = 3%N -> want_ways w = false) -> (k = 4%N -> want_relations w = false) -> item w h (EString k s) []
| item_other e : (forall k s, e <> EString k s) -> item w h e [].
Definition group_elements (w : wanted) (h : header) (g : list N) (els : list element) : Prop :=
  exists es ls, message varint_of g es /\ Forall2 (item w h) es ls /\ els = concat ls.
Definition block_elements (w : wanted) (h : header) (els : list element) : Prop :=
  exists ls, Forall2 (group_elements w h) (groups h) ls /\ els = concat ls.
