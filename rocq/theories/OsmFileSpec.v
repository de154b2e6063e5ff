(** What a file in the PBF format of OSM is made of (fileformat.proto and the description of the format).

    A file is a sequence of blocks. Each has the size of its header in four bytes, the header with the type and the size
    of the content, and the content. Messages are given by their fields as in OsmBlockSpec. *)
From Coq Require Import String.
From Verif Require Import Base ProtobufModel ProtobufSpec OsmBlockModel OsmBlockSpec.

(** A number in network byte order. *)
Definition be32 (n : N) : list N := [n / 2 ^ 24 mod 256; n / 2 ^ 16 mod 256; n / 2 ^ 8 mod 256; n mod 256]%N.
(** Text as bytes. *)
Definition text (s : string) : list N := map Ascii.N_of_ascii (list_ascii_of_string s).
Arguments text s%string_scope.

(** The limits of the format: 64 KiB for a header, 32 MiB for the content of a block. *)
Definition header_limit : N := 2 ^ 16.
Definition content_limit : N := 2 ^ 25.

(** A block of the given type. *)
Definition framed (ty content bs : list N) : Prop :=
  exists header es, bs = be32 (N.of_nat (length header)) ++ header ++ content /\
    (N.of_nat (length header) < header_limit)%N /\ (N.of_nat (length content) <= content_limit)%N /\
    message varint_of header es /\ payloads 1 es = [ty] /\ varints 3 es = [N.of_nat (length content)].

(** Features that the reader must know, and features that it may make use of. *)
Inductive file_block :=
| BHeader (required optional : list (list N))
| BData (sized : bool) (block : list N)
| BOther.

Section spec.
(** [unzips z bs]: the stream [z] decompresses to [bs]. *)
Context (unzips : list N -> list N -> Prop).

(** The content of a block of data. The size is optional if the data is not compressed; [sized] says whether it is there. *)
Inductive blob : list N -> bool -> list N -> Prop :=
| blob_raw bs es block (sized : bool) : message varint_of bs es -> payloads 1 es = [block] -> payloads 3 es = [] ->
    varints 2 es = (if sized then [N.of_nat (length block)] else []) -> blob bs sized block
| blob_zip bs es z block : message varint_of bs es -> payloads 1 es = [] -> payloads 3 es = [z] -> unzips z block ->
    varints 2 es = [N.of_nat (length block)] -> blob bs true block.

Inductive file_block_bytes : list N -> file_block -> Prop :=
| fb_header content bs es : framed (text "OSMHeader") content bs -> message varint_of content es ->
    file_block_bytes bs (BHeader (payloads 4 es) (payloads 5 es))
| fb_data content bs sized block : framed (text "OSMData") content bs -> blob content sized block -> (N.of_nat (length block) <= content_limit)%N ->
    file_block_bytes bs (BData sized block)
| fb_other ty content bs : framed ty content bs -> 0%N ∉ ty -> ty <> text "OSMHeader" -> ty <> text "OSMData" -> file_block_bytes bs BOther.
Definition file_of (bs : list N) (fbs : list file_block) : Prop := exists ls, Forall2 file_block_bytes ls fbs /\ bs = concat ls.
End spec.

Definition is_header (fb : file_block) : Prop := match fb with BHeader _ _ => True | _ => False end.
Definition is_data (fb : file_block) : Prop := match fb with BData _ _ => True | _ => False end.
Definition is_other (fb : file_block) : Prop := match fb with BOther => True | _ => False end.
(** The only header comes before the data. *)
Definition header_first (fbs : list file_block) : Prop :=
  Forall (fun fb => ~ is_header fb) fbs \/
  exists pre r o post, fbs = pre ++ BHeader r o :: post /\ Forall is_other pre /\ Forall (fun fb => ~ is_header fb) post.
(** The blocks of data. *)
Definition data_of (fbs : list file_block) : list (list N) := omap (fun fb => match fb with BData _ b => Some b | _ => None end) fbs.
(** The file says that its elements are sorted: nodes, then ways, then relations. *)
Definition says_sorted (fbs : list file_block) : Prop := exists r o, BHeader r o ∈ fbs /\ text "Sort.Type_then_ID" ∈ o.

(** What the code supports of the blocks of a file. *)
Definition supported (fb : file_block) : Prop :=
  match fb with
  | BHeader r o => Forall (fun f => f = text "DenseNodes") r /\ Forall (fun f => 0%N ∉ f) o
  | BData sized _ => sized = true
  | BOther => True
  end.
(** [p] occurs in [l]. *)
Definition part (p l : list N) : Prop := exists a b, l = a ++ p ++ b.

(** ** Elements *)
Definition is_xnode (el : element) : bool := match el with XNode _ _ _ _ => true | _ => false end.
Definition is_xway (el : element) : bool := match el with XWay _ _ _ => true | _ => false end.
Definition is_xrelation (el : element) : bool := match el with XRelation _ _ _ => true | _ => false end.
Definition chosen (w : wanted) (el : element) : bool :=
  match el with XNode _ _ _ _ => want_nodes w | XWay _ _ _ => want_ways w | XRelation _ _ _ => want_relations w end.
(** First all nodes, then all ways, then all relations, each in the order of the file. *)
Definition by_kind (els : list element) : list element :=
  List.filter is_xnode els ++ List.filter is_xway els ++ List.filter is_xrelation els.

(** The elements of a block whose coordinates have no offset (see C43). *)
Definition block_contains (block : list N) (els : list element) : Prop :=
  exists h, block_message block h /\ block_elements (mkWanted true true true) h els /\ offset_of_latitude h = 0%Z /\ offset_of_longitude h = 0%Z.
