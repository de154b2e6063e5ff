(** Model of include/routingkit/tag_map.h.

    A C string is the list of its bytes without the terminating zero. Keys and values are given
    as a list of pairs instead of the two functions; [V] is the type of values. [std::sort] is
    modelled by a sorting function (any sorted permutation of unsigned integers is the same
    list). [None] is an access outside an array. *)
From stdpp Require Import sorting.
From Verif Require Import Base.

Notation cstring := (list N).

(** 15-28; upper and lower case letters *)
Definition compute_char_hash (c : N) : nat :=
  if decide (c ∈ [101; 69]%N) then 7
  else if decide (c ∈ [116; 84]%N) then 8
  else if decide (c ∈ [97; 65]%N) then 9
  else if decide (c ∈ [111; 79]%N) then 10
  else if decide (c ∈ [105; 73]%N) then 11
  else if decide (c ∈ [110; 78]%N) then 12
  else if decide (c ∈ [115; 83]%N) then 13
  else if decide (c ∈ [104; 72]%N) then 14
  else if decide (c ∈ [114; 82]%N) then 15
  else N.to_nat (c mod 7).
(** 30, 48 *)
Definition char_hash_count : nat := 16.
Definition hash_count : nat := char_hash_count * char_hash_count * char_hash_count.
(** 32-46 *)
Definition compute_hash (str : cstring) : option nat :=
  if decide (length str = 0) then Some 0
  else
    let last_char := length str - 1 in
    a ← str !! 0; b ← str !! last_char; c ← str !! (last_char / 2);
    Some ((compute_char_hash a * char_hash_count + compute_char_hash b) * char_hash_count + compute_char_hash c).

(** 119-121 *)
Record tagmap (V : Type) := mkTm { hash_element_list : list N; entry : list (cstring * V); entry_begin : list nat; entry_end : list nat }.
Arguments mkTm {V}. Arguments hash_element_list {V}. Arguments entry {V}. Arguments entry_begin {V}. Arguments entry_end {V}.

(** 51 *)
Definition tm_new {V} : tagmap V := mkTm [] [] (replicate hash_count 0) (replicate hash_count 0).
(** 53-58 *)
Definition tm_clear {V} (t : tagmap V) : option (tagmap V) :=
  '(b, e) ← for_each (hash_element_list t) (fun x '(b, e) =>
      b ← wr b (N.to_nat (N.shiftr x 16)) 0; e ← wr e (N.to_nat (N.shiftr x 16)) 0; Some (b, e))
    (entry_begin t, entry_end t);
  Some (mkTm (hash_element_list t) (entry t) b e).
(** 60-85. The vector [entry] is resized and then written element by element. *)
Definition tm_build {V} (t : tagmap V) (kv : list (cstring * V)) : option (tagmap V) :=
  t ← tm_clear t;
  hel ← mapM (fun i => p ← kv !! i; h ← compute_hash (fst p); Some (N.lor (N.shiftl (N.of_nat h) 16) (N.of_nat i))) (seq 0 (length kv));
  let hel := merge_sort N.le hel in
  '(en, b, e, _) ← for_range 0 (length kv) (fun i '(en, b, e, prev_hash) =>
      x ← hel !! i;
      let hash := N.to_nat (N.shiftr x 16) in
      let j := N.to_nat (N.land x 65535) in
      p ← kv !! j;
      b ← (if decide (hash <> prev_hash) then wr b hash i else Some b);
      e ← wr e hash (i + 1);
      Some (en ++ [p], b, e, hash)) ([], entry_begin t, entry_end t, hash_count);
  Some (mkTm hel en b e).
(** 90-94 *)
Fixpoint tm_search {V} (n i : nat) (en : list (cstring * V)) (key : cstring) : option (option V) :=
  match n with
  | O => Some None
  | S n => p ← en !! i; if decide (key = fst p) then Some (Some (snd p)) else tm_search n (S i) en key
  end.
(** 87-95 *)
Definition tm_lookup {V} (t : tagmap V) (key : cstring) : option (option V) :=
  hash ← compute_hash key;
  b ← entry_begin t !! hash; e ← entry_end t !! hash;
  tm_search (e - b) b (entry t) key.
(** 97-103 *)
Definition tm_size {V} (t : tagmap V) : nat := length (entry t).
Definition tm_empty {V} (t : tagmap V) : bool := bool_decide (entry t = []).
