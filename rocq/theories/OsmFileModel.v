(** Model of src/osm_decoder.cpp:1-275 and 646-718: from the bytes of a file to the blocks of OSM data
    (OsmPBFDecompressor), and the two functions that read a file (unordered_read_osm_pbf and
    ordered_read_osm_pbf). The decoding of a block is in OsmBlockModel.

    BufferedAsynchronousReader is used by what C37 says about it: a reader is the list of the bytes that
    have not been read yet. FileDataSource hands out the bytes of the file, [rewind] starts again. zlib is
    an argument. [Throw] is an exception, [None] is undefined behaviour or a loop that does not end.
    Messages of exceptions are left out. *)
From Coq Require Import String.
From Verif Require Import Base ProtobufModel TagMapModel OsmBlockModel OsmProfileModel.

(** ** Readers (buffered_asynchronous_reader.cpp:141-182) *)
(** 80-82 and 77: the size of the blocks of both readers, [64 << 20] *)
Definition minimum_read_size : N := 67108864.
(** buffered_asynchronous_reader.cpp:141-175. The first component is [None] for a null pointer. *)
Definition read (size : N) (rest : list N) : result (option (list N) * list N) :=
  if decide (minimum_read_size < size)%N then Throw
  else if decide (N.of_nat (length rest) < size)%N then Ret (None, rest)
  else Ret (Some (take (N.to_nat size) rest), drop (N.to_nat size) rest).
(** buffered_asynchronous_reader.cpp:177-182 *)
Definition read_or_throw (size : N) (rest : list N) : result (list N * list N) :=
  match read size rest with Ret (Some bs, rest) => Ret (bs, rest) | _ => Throw end.

(** 60-65 on a machine that stores the least significant byte first; always used with four bytes *)
Fixpoint load32 (bs : list N) : N := match bs with [] => 0 | b :: bs => b + 256 * load32 bs end%N.
(** 55-58 *)
Definition store32 (n : N) : list N := [n mod 256; n / 2 ^ 8 mod 256; n / 2 ^ 16 mod 256; n / 2 ^ 24 mod 256]%N.
(** The function of the system (28-29) on such a machine: reverses the order of the bytes. *)
Definition ntohl_system (x : N) : N := ((x mod 256) * 2 ^ 24 + (x / 2 ^ 8 mod 256) * 2 ^ 16 + (x / 2 ^ 16 mod 256) * 2 ^ 8 + x / 2 ^ 24)%N.
(** 33-39, compiled with ROUTING_KIT_ASSUME_LITTLE_ENDIAN *)
Definition shl32 (x k : N) : N := (N.shiftl x k mod 2 ^ 32)%N.
Definition ntohl_own (x : N) : N := N.lor (N.lor (N.lor (shl32 x 24) (N.shiftr (shl32 x 16) 8)) (N.shiftr (shl32 x 8) 16)) (N.shiftr x 24).

(** 67-70 *)
Definition is_header_info_available_bit : N := 1.
Definition is_ordered_bit : N := 2.
Definition was_blob_read_bit : N := 4.
Definition was_header_read_bit : N := 8.
Definition has_bit (status bit : N) : bool := negb (N.land status bit =? 0)%N.

(** std::equal(str_begin, str_end, literal), as used in 149 and 152: compares, up to the first difference, with as many characters of the literal as the string has. The
    literal is followed by a zero; reading beyond is undefined. *)
Fixpoint equal_chars (s lit : list N) : option bool :=
  match s, lit with
  | [], _ => Some true
  | _, [] => None
  | a :: s, b :: lit => if decide (a = b) then equal_chars s lit else Some false
  end.
Definition std_equal (s : list N) (lit : string) : option bool := equal_chars s (str lit ++ [0%N]).
Arguments std_equal s lit%string_scope.

(** 147-155: the callback for the strings of the header block. The result is the new [is_ordered]. *)
Definition header_string (key_id : N) (s : list N) (is_ordered : bool) : M bool :=
  if decide (key_id = 4%N) then
    b ← std_equal s "DenseNodes"; if (b : bool) then ret is_ordered else throw
  else if decide (key_id = 5%N) then
    b ← std_equal s "Sort.Type_then_ID"; ret (if (b : bool) then true else is_ordered)
  else ret is_ordered.
Fixpoint header_strings (es : list event) (is_ordered : bool) : M bool :=
  match es with
  | [] => ret is_ordered
  | EString k s :: es => is_ordered <- header_string k s is_ordered; header_strings es is_ordered
  | _ :: es => header_strings es is_ordered
  end.
(** 141-156 *)
Definition read_header_block (bs : list N) : M bool :=
  '(es, ok) ← walk bs;
  is_ordered <- header_strings es false;
  if (ok : bool) then ret is_ordered else throw.

(** ** A call of the function object of OsmPBFDecompressor (88-239) *)
Section file.
Context (ntohl : N -> N).
(** zlib (213-232): [inflate z n] are the bytes that inflate writes into [n] bytes for the stream that [z] starts with, or [None] if it
    does not reach the end of the stream. *)
Context (inflate : list N -> N -> option (list N)).

(** 102-127: the type and the size of a block of the file *)
Definition read_blob_header (bs : list N) : M (cstring * N) :=
  es <- message_events bs;
  let data_size := from_option (fun num => num mod 2 ^ 32)%N (2 ^ 32 - 1)%N (last_varint 3 es) in
  let block_type := c_str (take 15 (default [] (last_string 1 es))) in
  if decide (data_size = 2 ^ 32 - 1)%N then throw else ret (block_type, data_size).

(** How the search for the next block of data ends: return 0, an exception, or a blob. *)
Inductive found := FEnd | FThrow | FBlob (blob rest : list N).
(** 92-165. The first list has the values that are written to [status], in their order. *)
Fixpoint find_blob (fuel : nat) (status : N) (rest : list N) : option (list N * found) :=
  match fuel with
  | O => None
  | S fuel =>
      match read 4 rest with
      | Throw => Some ([], FThrow)
      | Ret (None, _) => Some ([], FEnd)
      | Ret (Some p, rest) =>
          match read_or_throw (ntohl (load32 p)) rest with
          | Throw => Some ([], FThrow)
          | Ret (bs, rest) =>
              r ← read_blob_header bs;
              match r with
              | Throw => Some ([], FThrow)
              | Ret (block_type, data_size) =>
                  if decide (block_type = str "OSMData") then
                    let status := N.lor status (N.lor is_header_info_available_bit was_blob_read_bit) in
                    match read_or_throw data_size rest with
                    | Throw => Some ([status], FThrow)
                    | Ret (blob, rest) => Some ([status], FBlob blob rest)
                    end
                  else if decide (block_type = str "OSMHeader") then
                    if has_bit status is_header_info_available_bit && has_bit status was_blob_read_bit then Some ([], FThrow)
                    else if has_bit status is_header_info_available_bit && has_bit status was_header_read_bit then Some ([], FThrow)
                    else
                      match read_or_throw data_size rest with
                      | Throw => Some ([], FThrow)
                      | Ret (bs, rest) =>
                          r ← read_header_block bs;
                          match r with
                          | Throw => Some ([], FThrow)
                          | Ret is_ordered =>
                              let status := if (is_ordered : bool) then N.lor (N.lor is_header_info_available_bit is_ordered_bit) was_header_read_bit
                                            else N.lor is_header_info_available_bit was_header_read_bit in
                              '(ss, f) ← find_blob fuel status rest; Some (status :: ss, f)
                          end
                      end
                  else
                    match read data_size rest with
                    | Throw => Some ([], FThrow)
                    | Ret (_, rest) => find_blob fuel status rest
                    end
              end
          end
      end
  end.

(** 167-237: what is written to the buffer, the size of the block and the block. The reader asks for [minimum_read_size] bytes. *)
Definition unpack_blob (blob : list N) : M (list N) :=
  es <- message_events blob;
  match last_string 1 es, last_string 3 es, last_varint 2 es with
  | Some _, Some _, _ | None, None, _ | _, _, None => throw
  | uncompressed, compressed, Some size =>
      if decide (size = 2 ^ 64 - 1)%N then throw
      else if decide (minimum_read_size - 4 < size)%N then throw
      else
        match uncompressed, compressed with
        | Some bs, _ => if decide (size <> N.of_nat (length bs)) then throw else ret (store32 size ++ bs)
        | _, Some z =>
            match inflate z (minimum_read_size - 4) with
            | None => throw
            | Some bs => if decide (N.of_nat (length bs) <> size) then throw else ret (store32 size ++ bs)
            end
        | None, None => throw
        end
  end.

(** All calls until one returns 0 or throws: the values of [status], the bytes that each call has written, and whether there was no exception. A call leaves at
    least four bytes less. *)
Fixpoint decompress (fuel : nat) (status : N) (rest : list N) : option (list N * list (list N) * bool) :=
  match fuel with
  | O => None
  | S fuel =>
      '(ss, f) ← find_blob (S (length rest)) status rest;
      match f with
      | FEnd => Some (ss, [], true)
      | FThrow => Some (ss, [], false)
      | FBlob blob rest =>
          r ← unpack_blob blob;
          match r with
          | Throw => Some (ss, [], false)
          | Ret block => '(ss', bs, ok) ← decompress fuel (default status (last ss)) rest; Some (ss ++ ss', block :: bs, ok)
          end
      end
  end.
Definition decompress_file (file : list N) : option (list N * list (list N) * bool) := decompress (S (length file)) 0 file.

(** ** internal_read_osm_pbf (246-648) *)
(** 264-275 for each block, and the decoding of the blocks *)
Fixpoint decode_stream (fuel : nat) (w : wanted) (rest : list N) (tm : tagmap cstring) : M (list call * tagmap cstring) :=
  match fuel with
  | O => None
  | S fuel =>
      match read 4 rest with
      | Throw => throw
      | Ret (None, _) => ret ([], tm)
      | Ret (Some p, rest) =>
          match read_or_throw (load32 p) rest with
          | Throw => throw
          | Ret (b, rest) => '(cs, tm) <- decode_block w b tm; '(r, tm) <- decode_stream fuel w rest tm; ret (cs ++ r, tm)
          end
      end
  end.
(** An exception of the decompressor ([ok] is false) is noticed after any number [seen] of blocks. The calls made before an exception
    are lost from view. *)
Definition internal_read_osm_pbf (seen : nat) (w : wanted) (blocks : list (list N)) (ok : bool) : M (list call) :=
  let stream := concat (if ok then blocks else take seen blocks) in
  '(cs, _) <- decode_stream (S (length stream)) w stream tm_new;
  if ok then ret cs else throw.

(** 650-663 *)
Definition unordered_read_osm_pbf (seen : nat) (w : wanted) (file : list N) : M (list call) :=
  '(_, blocks, ok) ← decompress_file file; internal_read_osm_pbf seen w blocks ok.

(** 665-718. The decompressor runs in another thread: [pick] is the number of further changes of [status] before line 687 looks at it. If
    no value with the bit is ever written, the loop in 680-683 does not end. *)
Definition ordered_read_osm_pbf (seen pick : nat) (w : wanted) (file_is_ordered : bool) (file : list N) : M (list call) :=
  '(ss, blocks, ok) ← decompress_file file;
  ordered ← (if file_is_ordered then Some true
             else
               let available := List.filter (fun s => has_bit s is_header_info_available_bit) ss in
               s ← available !! (pick `min` (length available - 1)); Some (has_bit s is_ordered_bit));
  if (ordered : bool) then internal_read_osm_pbf seen w blocks ok
  else
    let pass (asked : bool) (w : wanted) := if asked then internal_read_osm_pbf seen w blocks ok else ret [] in
    ns <- pass (want_nodes w) (mkWanted true false false);
    ws <- pass (want_ways w) (mkWanted false true false);
    rs <- pass (want_relations w) (mkWanted false false true);
    ret (ns ++ ws ++ rs).
End file.
