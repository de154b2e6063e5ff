(** Model of the decoding of one block of OSM data, src/osm_decoder.cpp:253-660 (the body of the
    loop of internal_read_osm_pbf, from the bytes of the block to the calls of the callbacks).

    Bytes are lists; the pointer pairs of the code are the bytes between them. Coordinates are
    exact numbers of nanodegrees ([Z]) instead of doubles. [None] is undefined behaviour,
    [Throw] an exception. Writing a string over its length byte and cutting it with a zero
    (302-308) happens inside the bytes of that string, so the strings are the bytes of the
    field up to the first zero. *)
From Verif Require Import Base ProtobufModel TagMapModel.

Notation M A := (option (result A)).
Definition ret {A} (a : A) : M A := Some (Ret a).
Definition throw {A} : M A := Some Throw.
Definition mb {A B} (x : M A) (f : A -> M B) : M B :=
  match x with None => None | Some Throw => Some Throw | Some (Ret a) => f a end.
Notation "a <- x ; y" := (mb x (fun a => y)) (at level 20, x at level 100, y at level 200, only parsing).
Notation "' p <- x ; y" := (mb x (fun p => y)) (at level 20, p pattern, x at level 100, y at level 200, only parsing).

(** The events of a message. If it is malformed the code throws after the callbacks for the well-formed part; the model throws at once. *)
Definition message_events (bs : list N) : M (list event) :=
  '(es, ok) ← walk bs; if (ok : bool) then ret es else throw.
(** A variable set by a callback: the last one wins. *)
Definition last_varint (k : N) (es : list event) : option N :=
  last (omap (fun e => match e with EVarint id v => if decide (id = k) then Some v else None | _ => None end) es).
Definition last_string (k : N) (es : list event) : option (list N) :=
  last (omap (fun e => match e with EString id s => if decide (id = k) then Some s else None | _ => None end) es).

(** ** The block header (277-320) *)
Record header := mkHeader { granularity : N; offset_of_latitude : Z; offset_of_longitude : Z; string_table : list cstring; groups : list (list N) }.
(** The string a pointer to [s] stands for. *)
Fixpoint c_str (s : list N) : cstring := match s with [] => [] | b :: s => if decide (b = 0%N) then [] else b :: c_str s end.
(** 299-312: the fields of the string table *)
Definition table_of (bs : list N) : M (list cstring) :=
  es <- message_events bs; ret (omap (fun e => match e with EString _ s => Some (c_str s) | _ => None end) es).
Fixpoint tables (es : list event) : M (list cstring) :=
  match es with
  | [] => ret []
  | EString id s :: es => if decide (id = 1%N) then t <- table_of s; r <- tables es; ret (t ++ r) else tables es
  | _ :: es => tables es
  end.
(** 277-320 *)
Definition read_header (bs : list N) : M header :=
  es <- message_events bs;
  t <- tables es;
  let g := default 100%N (last_varint 17 es) in
  if decide (g = 0%N) then throw
  else ret (mkHeader g (from_option zigzag 0%Z (last_varint 19 es)) (from_option zigzag 0%Z (last_varint 20 es)) t
    (omap (fun e => match e with EString id s => if decide (id = 2%N) then Some s else None | _ => None end) es)).
(** 322-324 *)
Definition primblock_lon_offset (h : header) : Z := offset_of_latitude h.
Definition primblock_lat_offset (h : header) : Z := offset_of_longitude h.

(** ** Tags *)
(** 366-377, 441-452, 509-520, 589-600: the check lets the table size pass *)
Definition tag_string (t : list cstring) (i : N) : M cstring :=
  if decide (N.of_nat (length t) < i)%N then throw else s ← t !! N.to_nat i; ret s.
Fixpoint mapR {A B} (f : A -> M B) (l : list A) : M (list B) :=
  match l with [] => ret [] | x :: l => y <- f x; r <- mapR f l; ret (y :: r) end.
(** 357-362, 500-505, 580-585 *)
Fixpoint key_value_loop (fuel : nat) (kb vb : list N) : M (list N * list N * list N * list N) :=
  match kb, vb with
  | _ :: _, _ :: _ =>
      match fuel with
      | O => None
      | S fuel =>
          '(k, kb) <- decode_varint kb; '(v, vb) <- decode_varint vb;
          '(ks, vs, kb, vb) <- key_value_loop fuel kb vb;
          ret (k :: ks, v :: vs, kb, vb)
      end
  | _, _ => ret ([], [], kb, vb)
  end.
(** 355-378. All keys are looked up before the values; the code looks the values up in the order of the hashes. *)
Definition build_tags (t : list cstring) (ks vs : list N) (tm : tagmap cstring) : M (tagmap cstring) :=
  ks <- mapR (tag_string t) ks; vs <- mapR (tag_string t) vs;
  tm ← tm_build tm (zip ks vs); ret tm.
Definition read_tags (t : list cstring) (es : list event) (tm : tagmap cstring) : M (tagmap cstring) :=
  let kb := default [] (last_string 2 es) in
  let vb := default [] (last_string 3 es) in
  '(ks, vs, kb, vb) <- key_value_loop (length kb) kb vb;
  if decide (kb <> [] \/ vb <> []) then throw else build_tags t ks vs tm.

(** ** The calls of the callbacks *)
Inductive member_type := MNode | MWay | MRelation.
Inductive call :=
| CNode (id : N) (lat lon : Z) (tags : tagmap cstring)
| CWay (id : N) (nodes : list N) (tags : tagmap cstring)
| CRelation (id : N) (members : list (member_type * N * cstring)) (tags : tagmap cstring).

Definition no_id : N := 2 ^ 64 - 1.
(** id += zigzag(...), on unsigned 64-bit numbers *)
Definition add_delta (id : N) (x : N) : N := Z.to_N ((Z.of_N id + zigzag x) mod 2 ^ 64).

(** 326-381 *)
Definition decode_sparse_node (h : header) (bs : list N) (tm : tagmap cstring) : M (list call * tagmap cstring) :=
  es <- message_events bs;
  let id := default no_id (last_varint 1 es) in
  let lat := from_option (fun v => primblock_lon_offset h + Z.of_N (granularity h) * zigzag v)%Z 0%Z (last_varint 19 es) in
  let lon := from_option (fun v => primblock_lat_offset h + Z.of_N (granularity h) * zigzag v)%Z 0%Z (last_varint 20 es) in
  if decide (id = no_id) then throw
  else tm <- read_tags (string_table h) es tm; ret ([CNode id lat lon tm], tm).

(** 428-436 *)
Fixpoint dense_tags (fuel : nat) (kvb : list N) : M (list N * list N * list N) :=
  '(x, kvb) <- decode_varint kvb;
  if decide (x = 0%N) then ret ([], [], kvb)
  else
    '(y, kvb) <- decode_varint kvb;
    match fuel with
    | O => None
    | S fuel => '(ks, vs, kvb) <- dense_tags fuel kvb; ret (x :: ks, y :: vs, kvb)
    end.
(** 418-456; [kvb] is [None] if there is no list of keys and values. The calls made so far are lost from view if an exception is thrown. *)
Fixpoint dense_loop (fuel : nat) (h : header) (ib latb lonb : list N) (kvb : option (list N)) (id : N) (lat lon : Z) (tm : tagmap cstring)
  : M (list call * list N * list N * option (list N) * tagmap cstring) :=
  match ib with
  | [] => ret ([], latb, lonb, kvb, tm)
  | _ =>
      match fuel with
      | O => None
      | S fuel =>
          '(x, ib) <- decode_varint ib; let id := add_delta id x in
          '(x, latb) <- decode_varint latb; let lat := (lat + (primblock_lon_offset h + Z.of_N (granularity h) * zigzag x))%Z in
          '(x, lonb) <- decode_varint lonb; let lon := (lon + (primblock_lon_offset h + Z.of_N (granularity h) * zigzag x))%Z in
          '(tm, kvb) <- match kvb with
            | None => ret (tm, None)
            | Some b => '(ks, vs, b) <- dense_tags (length b) b; tm <- build_tags (string_table h) ks vs tm; ret (tm, Some b)
            end;
          '(cs, latb, lonb, kvb, tm') <- dense_loop fuel h ib latb lonb kvb id lat lon tm;
          ret (CNode id lat lon tm :: cs, latb, lonb, kvb, tm')
      end
  end.
(** 383-463. An empty list still has a pointer. *)
Definition decode_dense_node (h : header) (bs : list N) (tm : tagmap cstring) : M (list call * tagmap cstring) :=
  es <- message_events bs;
  match last_string 1 es, last_string 8 es, last_string 9 es with
  | Some ib, Some latb, Some lonb =>
      tm ← tm_clear tm;
      '(cs, latb, lonb, kvb, tm) <- dense_loop (length ib) h ib latb lonb (last_string 10 es) 0 0 0 tm;
      if decide (latb <> [] \/ lonb <> [] \/ default [] kvb <> []) then throw else ret (cs, tm)
  | _, _, _ => throw
  end.

(** 525-528 *)
Fixpoint delta_list (fuel : nat) (bs : list N) (id : N) : M (list N) :=
  match bs with
  | [] => ret []
  | _ =>
      match fuel with
      | O => None
      | S fuel => '(x, bs) <- decode_varint bs; let id := add_delta id x in r <- delta_list fuel bs id; ret (id :: r)
      end
  end.
(** 465-534 *)
Definition decode_way (h : header) (bs : list N) (tm : tagmap cstring) : M (list call * tagmap cstring) :=
  es <- message_events bs;
  let id := default no_id (last_varint 1 es) in
  if decide (id = no_id) then throw
  else
    tm <- read_tags (string_table h) es tm;
    let nb := default [] (last_string 8 es) in
    nodes <- delta_list (length nb) nb 0;
    ret ([CWay id nodes tm], tm).

(** 604-625 *)
Fixpoint member_loop (fuel : nat) (t : list cstring) (ib rb tb : list N) (id : N) : M (list (member_type * N * cstring)) :=
  match ib with
  | [] => ret []
  | _ =>
      match fuel with
      | O => None
      | S fuel =>
          '(x, ib) <- decode_varint ib; let id := add_delta id x in
          '(x, rb) <- decode_varint rb;
          if decide (N.of_nat (length t) <= x)%N then throw
          else
            role ← t !! N.to_nat x;
            '(ty, tb) <- decode_varint tb;
            ty <- match ty with 0%N => ret MNode | 1%N => ret MWay | 2%N => ret MRelation | _ => throw end;
            r <- member_loop fuel t ib rb tb id;
            ret ((ty, id, role) :: r)
      end
  end.
(** 536-627 *)
Definition decode_relation (h : header) (bs : list N) (tm : tagmap cstring) : M (list call * tagmap cstring) :=
  es <- message_events bs;
  let id := default no_id (last_varint 1 es) in
  if decide (id = no_id) then throw
  else
    tm <- read_tags (string_table h) es tm;
    let ib := default [] (last_string 9 es) in
    ms <- member_loop (length ib) (string_table h) ib (default [] (last_string 8 es)) (default [] (last_string 10 es)) 0;
    ret ([CRelation id ms tm], tm).

(** ** Groups (629-650); which callbacks are given *)
Record wanted := mkWanted { want_nodes : bool; want_ways : bool; want_relations : bool }.
Fixpoint decode_group (w : wanted) (h : header) (es : list event) (tm : tagmap cstring) : M (list call * tagmap cstring) :=
  match es with
  | [] => ret ([], tm)
  | e :: es =>
      '(cs, tm) <- match e with
        | EString id s =>
            if bool_decide (id = 1%N) && want_nodes w then decode_sparse_node h s tm
            else if bool_decide (id = 2%N) && want_nodes w then decode_dense_node h s tm
            else if bool_decide (id = 3%N) && want_ways w then decode_way h s tm
            else if bool_decide (id = 4%N) && want_relations w then decode_relation h s tm
            else ret ([], tm)
        | _ => ret ([], tm)
        end;
      '(r, tm) <- decode_group w h es tm;
      ret (cs ++ r, tm)
  end.
Fixpoint decode_groups (w : wanted) (h : header) (gs : list (list N)) (tm : tagmap cstring) : M (list call * tagmap cstring) :=
  match gs with
  | [] => ret ([], tm)
  | g :: gs =>
      es <- message_events g;
      '(cs, tm) <- decode_group w h es tm;
      '(r, tm) <- decode_groups w h gs tm;
      ret (cs ++ r, tm)
  end.
(** 276-650: a block *)
Definition decode_block (w : wanted) (bs : list N) (tm : tagmap cstring) : M (list call * tagmap cstring) :=
  h <- read_header bs; decode_groups w h (groups h) tm.
