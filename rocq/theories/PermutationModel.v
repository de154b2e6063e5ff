(** Model of include/routingkit/permutation.h, inverse_vector.h and filter.h.
    Every array access is in the option monad: [None] is undefined behaviour. *)
From Verif Require Import Base.

Section perm.
Context {T : Type} `{Inhabited T}.

(** permutation.h:18-29 [is_permutation]. The early [return false] is the
    [Some false] result of the loop. *)
Fixpoint is_permutation_loop (n : nat) (l : list nat) (found : list bool) : option bool :=
  match l with
  | [] => Some true                                     (* :28 *)
  | x :: l' =>
      if decide (n <= x) then Some false                (* :22-23 *)
      else
        f ← found !! x;
        if (f : bool) then Some false                   (* :24-25 *)
        else found' ← wr found x true; is_permutation_loop n l' found' (* :26 *)
  end.
Definition is_permutation (p : list nat) : option bool :=
  is_permutation_loop (length p) p (replicate (length p) false).

(** permutation.h:31-40 *)
Definition chain_permutation_first_left_then_right (p q : list nat) : option (list nat) :=
  for_range 0 (length p) (fun i r => qi ← q !! i; pqi ← p !! qi; wr r i pqi)
    (replicate (length p) 0).

(** permutation.h:42-45 *)
Definition chain_permutation_first_right_then_left (p q : list nat) : option (list nat) :=
  chain_permutation_first_left_then_right q p.

(** permutation.h:47-57 (and the moving overload :59-69: moving out of [v[p[i]]]
    gives the same result if [p] is a permutation, since every element is read
    once). [inhabitant] is C++'s default constructed [T()]. *)
Definition apply_permutation (p : list nat) (v : list T) : option (list T) :=
  for_range 0 (length v) (fun i r => pi ← p !! i; x ← v !! pi; wr r i x)
    (replicate (length v) inhabitant).

(** permutation.h:71-81 (and :83-93) *)
Definition apply_inverse_permutation (p : list nat) (v : list T) : option (list T) :=
  for_range 0 (length v) (fun i r => pi ← p !! i; x ← v !! i; wr r pi x)
    (replicate (length v) inhabitant).

End perm.

(** permutation.h:95-102 *)
Definition inplace_apply_permutation_to_elements_of (p : list nat) (v : list nat) : option (list nat) :=
  for_range 0 (length v) (fun i v => vi ← v !! i; x ← p !! vi; wr v i x) v.

(** permutation.h:104-112 *)
Definition apply_permutation_to_elements_of (p v : list nat) : option (list nat) :=
  inplace_apply_permutation_to_elements_of p v.

(** permutation.h:115-123, on a vector of numbers as the code stores them
    ([invalid_id] is 2^32-1); indexing uses [N.to_nat]. *)
Definition inplace_apply_permutation_to_possibly_invalid_elements_of
    (p : list N) (v : list N) : option (list N) :=
  for_range 0 (length v)
    (fun i v => vi ← v !! i;
       if N.eqb vi invalid_id then Some v
       else x ← p !! N.to_nat vi; wr v i x) v.

(** permutation.h:95-102 once more, at type N (same loop as
    [inplace_apply_permutation_to_elements_of]). *)
Definition inplace_apply_permutation_to_elements_of_N (p : list N) (v : list N) : option (list N) :=
  for_range 0 (length v) (fun i v => vi ← v !! i; x ← p !! N.to_nat vi; wr v i x) v.

(** permutation.h:125-133: calls the variant that does *not* skip invalid_id
    (line 131). *)
Definition apply_permutation_to_possibly_invalid_elements_of (p v : list N) : option (list N) :=
  inplace_apply_permutation_to_elements_of_N p v.

(** permutation.h:136-145 *)
Definition invert_permutation (p : list nat) : option (list nat) :=
  for_range 0 (length p) (fun i inv_p => pi ← p !! i; wr inv_p pi i)
    (replicate (length p) 0).

(** permutation.h:147-153 *)
Definition identity_permutation (n : nat) : option (list nat) :=
  for_range 0 n (fun i p => wr p i i) (replicate n 0).

(** inverse_vector.h:33-34: the inner [while]; fuel is the number of elements
    left, so it never runs out. *)
Fixpoint skip_smaller (v : list nat) (i pos fuel : nat) : nat :=
  match fuel with
  | O => pos
  | S fuel' =>
      match v !! pos with
      | Some x => if decide (x < i) then skip_smaller v i (S pos) fuel' else pos
      | None => pos
      end
  end.

(** inverse_vector.h:20-40 *)
Definition invert_vector (v : list nat) (element_count : nat) : option (list nat) :=
  let index := replicate (S element_count) 0 in
  match v with
  | [] => Some index
  | _ =>
      index ← wr index 0 0;
      '(index, pos) ← for_range 0 element_count
          (fun i '(index, pos) =>
             let pos := skip_smaller v i pos (length v - pos) in
             index ← wr index i pos; Some (index, pos)) (index, 0);
      wr index element_count (length v)
  end.

(** inverse_vector.h:42-53 *)
Definition invert_inverse_vector (sorted_index : list nat) : option (list nat) :=
  back ← list.last sorted_index;
  for_range 0 (length sorted_index - 1)
    (fun i v =>
       lo ← sorted_index !! i; hi ← sorted_index !! S i;
       for_range lo hi (fun j v => wr v j i) v)
    (replicate back 0).

Section filter.
Context {T : Type}.

(** filter.h:16-24: in-place compaction. [keep] is the BitVector read with
    [is_set] (bit_vector model: see BitVectorModel); [vec.erase(begin+out,end)]
    is [take out]. The loop state is (vec, out). *)
Definition inplace_filter (sel : bool -> bool) (keep : list bool) (vec : list T) : option (list T) :=
  '(vec, out) ← for_range 0 (length vec)
     (fun inp '(vec, out) =>
        b ← keep !! inp;
        if sel b then x ← vec !! inp; vec ← wr vec out x; Some (vec, S out)
        else Some (vec, out)) (vec, 0);
  Some (take out vec).

(** filter.h:12-25 and 42-46 *)
Definition keep_element_of_vector_if := inplace_filter (fun b => b).
(** filter.h:27-40 and 48-52 *)
Definition remove_element_from_vector_if := inplace_filter negb.
End filter.
