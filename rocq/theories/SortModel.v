(** Model of include/routingkit/sort.h (sort by key). *)
From Verif Require Import Base PermutationModel.

(** std::stable_sort (C++ standard library) specified by insertion sort: a stable
    sort's result is determined uniquely by its specification. Used by
    sort.h:55-65 and 67-78. *)
Fixpoint insert_stable {A} (less : A -> A -> bool) (x : A) (l : list A) : list A :=
  match l with
  | [] => [x]
  | y :: l' => if less y x then y :: insert_stable less x l' else x :: y :: l'
  end.
Definition std_stable_sort {A} (less : A -> A -> bool) (l : list A) : list A :=
  foldr (insert_stable less) [] l.

Section sort.
Context {T : Type} `{Inhabited T} (get_key : T -> nat).

(** sort.h:132-137, first loop of [compute_key_pos]. The code's assertion
    [k <= key_count] is too weak: [k = key_count] writes out of range, which
    here is [None]. *)
Definition count_keys (v : list T) (key_count : nat) : option (list nat) :=
  for_range 0 (length v)
    (fun i key_pos => x ← v !! i; c ← key_pos !! get_key x; wr key_pos (get_key x) (S c))
    (replicate key_count 0).

(** sort.h:138-143, prefix sums. *)
Definition prefix_sums (key_count : nat) (key_pos : list nat) : option (list nat) :=
  '(key_pos, _) ← for_range 0 key_count
    (fun i '(key_pos, sum) => c ← key_pos !! i; key_pos ← wr key_pos i sum; Some (key_pos, sum + c))
    (key_pos, 0);
  Some key_pos.

(** sort.h:130-145 *)
Definition compute_key_pos (v : list T) (key_count : nat) : option (list nat) :=
  key_pos ← count_keys v key_count; prefix_sums key_count key_pos.

(** sort.h:193 *)
Definition use_bucket_sort (v : list T) (key_count : nat) : bool :=
  key_count / 16 <=? length v.

(** sort.h:194-201 *)
Definition bucket_sort_permutation (v : list T) (key_count : nat) : option (list nat) :=
  key_pos ← compute_key_pos v key_count;
  '(p, _) ← for_range 0 (length v)
    (fun i '(p, key_pos) =>
       x ← v !! i; k ← key_pos !! get_key x;
       p ← wr p k i; key_pos ← wr key_pos (get_key x) (S k); Some (p, key_pos))
    (replicate (length v) 0, key_pos);
  Some p.

(** sort.h:55-65: std::stable_sort on the identity permutation, comparing
    [get_key(v[l]) < get_key(v[r])]. *)
Definition key_less (v : list T) (l r : nat) : bool :=
  match v !! l, v !! r with
  | Some x, Some y => get_key x <? get_key y
  | _, _ => false
  end.
Definition comparator_sort_permutation (v : list T) : list nat :=
  std_stable_sort (key_less v) (seq 0 (length v)).

(** sort.h:189-208 at is_stable=true, and :217-220. *)
Definition compute_stable_sort_permutation_using_key (v : list T) (key_count : nat) : option (list nat) :=
  if use_bucket_sort v key_count then bucket_sort_permutation v key_count
  else Some (comparator_sort_permutation v).

(** sort.h:189-208 at is_stable=false, and :212-215. [std_sort] stands for
    std::sort on the identity permutation, whose order among equal keys is
    unspecified. *)
Definition compute_sort_permutation_using_key (std_sort : list nat -> list nat)
    (v : list T) (key_count : nat) : option (list nat) :=
  if use_bucket_sort v key_count then bucket_sort_permutation v key_count
  else Some (std_sort (seq 0 (length v))).

(** sort.h:227-234 *)
Definition bucket_inverse_sort_permutation (v : list T) (key_count : nat) : option (list nat) :=
  key_pos ← compute_key_pos v key_count;
  '(p, _) ← for_range 0 (length v)
    (fun i '(p, key_pos) =>
       x ← v !! i; k ← key_pos !! get_key x;
       p ← wr p i k; key_pos ← wr key_pos (get_key x) (S k); Some (p, key_pos))
    (replicate (length v) 0, key_pos);
  Some p.

(** sort.h:223-241 at is_stable=true, and :249-252; the fallback is :120-123. *)
Definition compute_inverse_stable_sort_permutation_using_key (v : list T) (key_count : nat) : option (list nat) :=
  if use_bucket_sort v key_count then bucket_inverse_sort_permutation v key_count
  else invert_permutation (comparator_sort_permutation v).

(** sort.h:260-268 *)
Definition bucket_sort (v : list T) (key_count : nat) : option (list T) :=
  key_pos ← compute_key_pos v key_count;
  '(r, _) ← for_range 0 (length v)
    (fun i '(r, key_pos) =>
       x ← v !! i; k ← key_pos !! get_key x;
       r ← wr r k x; key_pos ← wr key_pos (get_key x) (S k); Some (r, key_pos))
    (replicate (length v) inhabitant, key_pos);
  Some r.

(** sort.h:255-275 (and the moving overload :277-296) at is_stable=true, :309-317. *)
Definition stable_sort_using_key (v : list T) (key_count : nat) : option (list T) :=
  if use_bucket_sort v key_count then bucket_sort v key_count
  else Some (std_stable_sort (fun x y => get_key x <? get_key y) v).

(** sort.h:320-326 *)
Fixpoint is_sorted_using_key (v : list T) : bool :=
  match v with
  | x :: ((y :: _) as v') => if get_key y <? get_key x then false else is_sorted_using_key v'
  | _ => true
  end.
End sort.
