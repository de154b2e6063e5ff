(** Model of the functions of include/routingkit/sort.h that SortModel leaves out: by
    comparator and by less, the unstable functions, and the overloads that move; and of
    the moving overloads of permutation.h. *)
From Verif Require Import Base PermutationModel SortModel.

(** The conversion of a number to the type unsigned, as in the calls of
    [identity_permutation] and in the counters of loops. *)
Definition u32 (x : N) : nat := N.to_nat (x mod 4294967296).

Section comparator.
(** [std_sort] is std::sort, about which only the standard's promise is assumed. *)
Context (std_sort : forall A, (A -> A -> bool) -> list A -> list A).
Context {T : Type} (is_less : T -> T -> bool).

(** The lambdas of sort.h:60-62 and :86-88. The positions in the permutation are below
    v.size(), so both look-ups succeed. *)
Definition less_at (v : list T) (l r : nat) : bool :=
  match v !! l, v !! r with
  | Some x, Some y => is_less x y
  | _, _ => false
  end.

(** sort.h:55-65; v.size() becomes the unsigned parameter of identity_permutation. *)
Definition compute_stable_sort_permutation_using_comparator (v : list T) : option (list nat) :=
  p ← identity_permutation (u32 (N.of_nat (length v)));
  Some (std_stable_sort (less_at v) p).

(** sort.h:67-72, and the moving overload :74-78 *)
Definition stable_sort_using_comparator (v : list T) : list T := std_stable_sort is_less v.

(** sort.h:80-90 *)
Definition compute_sort_permutation_using_comparator (v : list T) : option (list nat) :=
  p ← identity_permutation (u32 (N.of_nat (length v)));
  Some (std_sort _ (less_at v) p).

(** sort.h:92-97, and the moving overload :99-103 *)
Definition sort_using_comparator (v : list T) : list T := std_sort _ is_less v.

(** sort.h:108-110: the loop from [i] on. [fuel] bounds the number of tests of the
    condition; the counter and [i-1] are unsigned. *)
Fixpoint is_sorted_loop (v : list T) (fuel i : nat) : option bool :=
  match fuel with
  | O => None
  | S fuel' =>
      if decide (i < length v) then
        x ← v !! i; y ← v !! u32 (N.of_nat i + 4294967295);
        if is_less x y then Some false else is_sorted_loop v fuel' (u32 (N.of_nat i + 1))
      else Some true
  end.
(** sort.h:106-112 *)
Definition is_sorted_using_comparator (v : list T) (fuel : nat) : option bool := is_sorted_loop v fuel 1.

(** sort.h:115-118 *)
Definition compute_inverse_sort_permutation_using_comparator (v : list T) : option (list nat) :=
  p ← compute_sort_permutation_using_comparator v; invert_permutation p.
(** sort.h:120-123 *)
Definition compute_inverse_stable_sort_permutation_using_comparator (v : list T) : option (list nat) :=
  p ← compute_stable_sort_permutation_using_comparator v; invert_permutation p.
End comparator.

Section key.
Context (std_sort : forall A, (A -> A -> bool) -> list A -> list A).
Context {T : Type} `{Inhabited T} (get_key : T -> nat).

(** sort.h:147-167, operator() of CompareByKey; its assertions are compiled only without
    NDEBUG and hold if all keys are below key_count. *)
Definition compare_by_key (l r : T) : bool := get_key l <? get_key r.

(** sort.h:223-241 at is_stable=false, and :244-247 *)
Definition compute_inverse_sort_permutation_using_key (v : list T) (key_count : nat) : option (list nat) :=
  if use_bucket_sort v key_count then bucket_inverse_sort_permutation get_key v key_count
  else compute_inverse_sort_permutation_using_comparator std_sort compare_by_key v.

(** sort.h:255-275 at is_stable=false, and :299-302 *)
Definition sort_using_key (v : list T) (key_count : nat) : option (list T) :=
  if use_bucket_sort v key_count then bucket_sort get_key v key_count
  else Some (sort_using_comparator std_sort compare_by_key v).

(** [moved x] is what the move constructor or assignment leaves in an object of value
    [x]: any value. *)
Context (moved : T -> T).

(** sort.h:281-290, the bucket sort of the moving overload; the state holds the vector
    that is moved from. *)
Definition bucket_sort_moving (v : list T) (key_count : nat) : option (list T) :=
  key_pos ← compute_key_pos get_key v key_count;
  '(r, _, _) ← for_range 0 (length v)
    (fun i '(r, key_pos, v) =>
       x ← v !! i; k ← key_pos !! get_key x;
       r ← wr r k x; v ← wr v i (moved x);
       key_pos ← wr key_pos (get_key x) (S k); Some (r, key_pos, v))
    (replicate (length v) inhabitant, key_pos, v);
  Some r.
(** sort.h:277-296, and :304-307 and :314-317. The fallbacks pass the name [v], so they
    call the overloads that copy. *)
Definition sort_using_key_moving (is_stable : bool) (v : list T) (key_count : nat) : option (list T) :=
  if use_bucket_sort v key_count then bucket_sort_moving v key_count
  else if is_stable then Some (stable_sort_using_comparator compare_by_key v)
  else Some (sort_using_comparator std_sort compare_by_key v).

(** permutation.h:59-69 *)
Definition apply_permutation_moving (p : list nat) (v : list T) : option (list T) :=
  '(r, _) ← for_range 0 (length v)
    (fun i '(r, v) => pi ← p !! i; x ← v !! pi; r ← wr r i x; v ← wr v pi (moved x); Some (r, v))
    (replicate (length v) inhabitant, v);
  Some r.

(** permutation.h:83-93 *)
Definition apply_inverse_permutation_moving (p : list nat) (v : list T) : option (list T) :=
  '(r, _) ← for_range 0 (length v)
    (fun i '(r, v) => pi ← p !! i; x ← v !! i; r ← wr r pi x; v ← wr v i (moved x); Some (r, v))
    (replicate (length v) inhabitant, v);
  Some r.
End key.

Section less.
Context (std_sort : forall A, (A -> A -> bool) -> list A -> list A).
(** [lt] is the operator < of the type T. *)
Context {T : Type} (lt : T -> T -> bool).

(** sort.h:333-336 *)
Definition compute_sort_permutation_using_less (v : list T) := compute_sort_permutation_using_comparator std_sort lt v.
(** sort.h:338-341 *)
Definition compute_stable_sort_permutation_using_less (v : list T) := compute_stable_sort_permutation_using_comparator lt v.
(** sort.h:343-346 *)
Definition compute_inverse_sort_permutation_using_less (v : list T) : option (list nat) :=
  p ← compute_sort_permutation_using_less v; invert_permutation p.
(** sort.h:348-351 *)
Definition compute_inverse_stable_sort_permutation_using_less (v : list T) : option (list nat) :=
  p ← compute_stable_sort_permutation_using_less v; invert_permutation p.
(** sort.h:353-361 *)
Definition stable_sort_using_less (v : list T) := stable_sort_using_comparator lt v.
(** sort.h:363-371 *)
Definition sort_using_less (v : list T) := sort_using_comparator std_sort lt v.
(** sort.h:373-376 *)
Definition is_sorted_using_less (v : list T) (fuel : nat) := is_sorted_using_comparator lt v fuel.
End less.
