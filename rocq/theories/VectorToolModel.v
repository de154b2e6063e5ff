(** Model of the programs src/encode_vector.cpp ([e:]), src/decode_vector.cpp ([d:]) and src/compare_vector.cpp ([c:]) for integers
    and strings; of the floating point types only the comparison is modelled. Text is a list of bytes, see TextModel. [Throw] means that the program stops
    with an error message. encode_vector reads the standard input, decode_vector and compare_vector write to the standard
    output. Vectors have less than 2^32 elements. *)
From Verif Require Import Base ProtobufModel VectorIoModel TextModel.

(** An integer type: its size and whether it is signed (e:88-103, d:60-75, c:110-125). *)
Record itype := mkItype { i_bytes : nat; i_signed : bool }.
Definition int8 := mkItype 1 true. Definition uint8 := mkItype 1 false. Definition int16 := mkItype 2 true. Definition uint16 := mkItype 2 false.
Definition int32 := mkItype 4 true. Definition uint32 := mkItype 4 false. Definition int64 := mkItype 8 true. Definition uint64 := mkItype 8 false.
(** The number of values, std::numeric_limits<T>::min() and max() (e:17-20) *)
Definition i_count (t : itype) : Z := (256 ^ Z.of_nat (i_bytes t))%Z.
Definition i_min (t : itype) : Z := if i_signed t then (- (i_count t / 2))%Z else 0%Z.
Definition i_max (t : itype) : Z := if i_signed t then (i_count t / 2 - 1)%Z else (i_count t - 1)%Z.
(** How a value lies in memory (vector_io.h:21, 36) *)
Definition enc_int (t : itype) (x : Z) : list N := le_bytes (i_bytes t) (Z.to_N (x mod i_count t)).
Definition dec_int (t : itype) (bs : list N) : Z :=
  let w := Z.of_N (le_word bs) in if i_signed t && (i_count t / 2 <=? w)%Z then (w - i_count t)%Z else w.

(** ** encode_vector.cpp *)
(** std::stoll and std::stoull (e:16, 40): spaces, an optional sign, digits; the rest is ignored. [None] if there are no digits. *)
Definition read_number (l : list N) : option (bool * N) :=
  let l := skip_spaces l in
  let '(negative, l) := match l with c :: l' => if (c =? 45)%N then (true, l') else if (c =? 43)%N then (false, l') else (false, l) | [] => (false, l) end in
  match fst (span is_digit l) with [] => None | ds => Some (negative, digits_value ds) end.
(** e:16: out of range is an exception *)
Definition stoll (l : list N) : result Z :=
  match read_number l with
  | None => Throw
  | Some (neg, v) => let x := if neg then (- Z.of_N v)%Z else Z.of_N v in
      if ((- 2 ^ 63 <=? x) && (x <? 2 ^ 63))%Z then Ret x else Throw
  end.
(** e:40: a negative number wraps around *)
Definition stoull (l : list N) : result Z :=
  match read_number l with
  | None => Throw
  | Some (neg, v) => if (v <? 2 ^ 64)%N then Ret (if neg then ((- Z.of_N v) mod 2 ^ 64)%Z else Z.of_N v) else Throw
  end.
(** e:16-20 *)
Definition read_int (t : itype) (line : list N) : result Z :=
  match stoll line with
  | Throw => Throw
  | Ret x => if (x <? i_min t)%Z then Throw else if (i_max t <? x)%Z then Throw else Ret x
  end.
(** The loops e:15-22, 39-41, 57-59: the lines are read one after the other; an exception ends the program. *)
Fixpoint read_lines {A} (f : list N -> result A) (lines : list (list N)) : result (list A) :=
  match lines with
  | [] => Ret []
  | l :: lines => match f l with Throw => Throw | Ret x => match read_lines f lines with Throw => Throw | Ret xs => Ret (x :: xs) end end
  end.
(** e:11-24 and e:36-43; e:102-103 uses the second for uint64 *)
Definition encode_ints (t : itype) (input : list N) : result (list N) :=
  match read_lines (if (i_bytes t =? 8) && negb (i_signed t) then stoull else read_int t) (getlines input) with
  | Throw => Throw
  | Ret v => Ret (save_vector (enc_int t) v)
  end.
(** std::string::find: the first position at which [search] occurs (e:47, d:21) *)
Fixpoint find_text (search s : list N) : option nat :=
  if decide (search `prefix_of` s) then Some 0 else match s with [] => None | _ :: s => S <$> find_text search s end.
(** e:45-52, d:19-26. The subject is cut at pos: [before] is final. The search is not empty, so pos grows or the rest gets shorter; the fuel is enough. *)
Fixpoint replace_loop (fuel : nat) (search replace before rest : list N) : option (list N) :=
  match fuel with
  | O => None
  | S fuel =>
      match find_text search rest with
      | None => Some (before ++ rest)
      | Some k => replace_loop fuel search replace (before ++ take k rest ++ replace) (drop (k + length search) rest)
      end
  end.
(** e:45-52 *)
Definition replace_all_substrings (subject search replace : list N) : option (list N) := replace_loop (S (length subject)) search replace [] subject.
(** e:58; 92 is the backslash, 110 the character n, 10 the newline *)
Definition unescape (line : list N) : option (list N) := s ← replace_all_substrings line [92; 92]%N [92]%N; replace_all_substrings s [92; 110]%N [10]%N.
(** e:54-61 *)
Definition encode_strings (input : list N) : option (list N) := v ← mapM unescape (getlines input); Some (save_strings v).

(** ** decode_vector.cpp *)
(** d:16 for an integer type; the precision has no effect on integers. A character type is printed as a character. *)
Definition print_int (t : itype) (x : Z) : list N :=
  if i_bytes t =? 1 then [Z.to_N (x mod 256)] else
  if (x <? 0)%Z then 45%N :: print_unsigned (Z.to_N (- x)) else print_unsigned (Z.to_N x).
(** d:11-17 *)
Definition decode_ints (t : itype) (file : list N) : result (list N) :=
  match load_vector (i_bytes t) (dec_int t) file with
  | Throw => Throw
  | Ret v => Ret (concat ((fun x => print_int t x ++ [10%N]) <$> v))
  end.
(** d:32 *)
Definition escape (s : list N) : option (list N) := s ← replace_all_substrings s [92]%N [92; 92]%N; replace_all_substrings s [10]%N [92; 110]%N.
(** d:28-33 *)
Definition decode_strings (file : list N) : option (list N) := v ← mapM escape (load_strings file); Some (concat ((fun s => s ++ [10%N]) <$> v)).

(** ** compare_vector.cpp *)
(** What is printed: which file is shorter, and the lengths (c:15-18, 56-59); that the vectors are the same (c:35, 69); or the numbers of c:37-46, 71-77. *)
Inductive report :=
  | FirstShorter (n1 n2 : nat)
  | SecondShorter (n2 n1 : nat)
  | Same (n : nat)
  | Differ (smaller1 smaller2 same different n : nat) (first : option nat)
  | DifferStrings (same different n : nat).
(** c:15-48. [lt] and [eq] are < and == of the type. The first difference is (unsigned)-1, here [None], as long as there is none (c:23). *)
Definition compare_values {A} (lt eq : A -> A -> bool) (v1 v2 : list A) : option report :=
  if length v1 <? length v2 then Some (FirstShorter (length v1) (length v2)) else
  if length v2 <? length v1 then Some (SecondShorter (length v2) (length v1)) else
  '(c1, c2, first) ← for_range 0 (length v1) (fun i '(c1, c2, first) =>
      x ← v1 !! i; y ← v2 !! i;
      let c1 := if lt x y then S c1 else c1 in
      let c2 := if lt y x then S c2 else c2 in
      let first := if negb (eq x y) && bool_decide (first = None) then Some i else first in
      Some (c1, c2, first)) (0, 0, None);
  Some (if (c1 =? 0) && (c2 =? 0) then Same (length v1) else Differ c1 c2 (length v1 - c1 - c2) (c1 + c2) (length v1) first).
(** c:11-50 for an integer type *)
Definition compare_ints (t : itype) (file1 file2 : list N) : result (option report) :=
  match load_vector (i_bytes t) (dec_int t) file1, load_vector (i_bytes t) (dec_int t) file2 with
  | Ret v1, Ret v2 => Ret (compare_values Z.ltb Z.eqb v1 v2)
  | _, _ => Throw
  end.
(** c:126-127: the comparison of float values, given by their bits: the sign is bit 31, then eight bits of exponent; if all of them are set and
    the fraction is not zero the value is not a number. *)
Definition float_nan (b : N) : bool := (2 ^ 31 - 2 ^ 23 <? b mod 2 ^ 31)%N.
(** c:126-127 *)
Definition float_key (b : N) : Z := if (b <? 2 ^ 31)%N then Z.of_N b else (- Z.of_N (b - 2 ^ 31))%Z.
(** < for float, c:26, 28 *)
Definition float_lt (a b : N) : bool := negb (float_nan a) && negb (float_nan b) && (float_key a <? float_key b)%Z.
(** == for float, c:30 *)
Definition float_eq (a b : N) : bool := negb (float_nan a) && negb (float_nan b) && (float_key a =? float_key b)%Z.
(** c:11-50 for float *)
Definition compare_floats (file1 file2 : list N) : result (option report) :=
  match load_vector 4 le_word file1, load_vector 4 le_word file2 with
  | Ret v1, Ret v2 => Ret (compare_values float_lt float_eq v1 v2)
  | _, _ => Throw
  end.
(** c:56-79 *)
Definition compare_string_values (v1 v2 : list (list N)) : option report :=
  if length v1 <? length v2 then Some (FirstShorter (length v1) (length v2)) else
  if length v2 <? length v1 then Some (SecondShorter (length v2) (length v1)) else
  equal ← for_range 0 (length v1) (fun i equal => x ← v1 !! i; y ← v2 !! i; Some (if bool_decide (x = y) then S equal else equal)) 0;
  Some (if equal =? length v1 then Same (length v1) else DifferStrings equal (length v1 - equal) (length v1)).
(** c:52-81 *)
Definition compare_strings (file1 file2 : list N) : option report := compare_string_values (load_strings file1) (load_strings file2).
