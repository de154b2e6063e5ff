(** Models of include/routingkit/timestamp_flag.h (TimestampFlags) and
    include/routingkit/id_set_queue.h (IDSetMinQueue). [None] is undefined
    behaviour or a violated assertion. *)
From Verif Require Import Base.

(** * TimestampFlags *)
(** timestamp_flag.h:35-36. [unsigned short] values as N; arithmetic wraps at 2^16. *)
Record flags := mkFlags { last_seen : list N; current_timestamp : N }.
Definition short_mod : N := 65536.

(** timestamp_flag.h:12 *)
Definition new_flags (id_count : nat) : flags := mkFlags (replicate id_count 0%N) 1.
(** timestamp_flag.h:14-16 *)
Definition is_set (f : flags) (id : nat) : option bool :=
  t ← last_seen f !! id; Some (N.eqb t (current_timestamp f)).
(** timestamp_flag.h:18-20 *)
Definition set_flag (f : flags) (id : nat) : option flags :=
  l ← wr (last_seen f) id (current_timestamp f); Some (mkFlags l (current_timestamp f)).
(** timestamp_flag.h:22-24; [current-1] is an int that is truncated to 16 bits. *)
Definition reset_one (f : flags) (id : nat) : option flags :=
  l ← wr (last_seen f) id ((current_timestamp f + (short_mod - 1)) mod short_mod)%N;
  Some (mkFlags l (current_timestamp f)).
(** timestamp_flag.h:26-32 *)
Definition reset_all (f : flags) : flags :=
  let c := ((current_timestamp f + 1) mod short_mod)%N in
  if N.eqb c 0 then mkFlags ((fun _ => 0%N) <$> last_seen f) 1 else mkFlags (last_seen f) c.

Inductive fop := FSet (id : nat) | FResetOne (id : nat) | FResetAll.
(** A history of modifying calls. *)
Definition f_step (f : flags) (o : fop) : option flags :=
  match o with
  | FSet id => set_flag f id
  | FResetOne id => reset_one f id
  | FResetAll => Some (reset_all f)
  end.
Fixpoint f_run (f : flags) (os : list fop) : option flags :=
  match os with
  | [] => Some f
  | o :: os => f ← f_step f o; f_run f os
  end.

(** * IDSetMinQueue *)
(** id_set_queue.h:225-228; [min_id] holds invalid_id as [None]. *)
Record idset := mkIdset { max_number_of_ids : nat; min_id : option nat; offset : nat; data : list bool }.

(** id_set_queue.h:69-71 *)
Definition parent (x : nat) : nat := x / 2.
(** id_set_queue.h:74-76, [x^1] *)
Definition other_child (x : nat) : nat := if Nat.even x then x + 1 else x - 1.
(** id_set_queue.h:79-86 *)
Definition is_smaller_child (x : nat) : bool := Nat.even x.
(** id_set_queue.h:89-91 *)
Definition smaller_child (x : nat) : nat := 2 * x.

(** id_set_queue.h:98-105. In C++ [y] is 32 bits wide: for more than 2^31 ids the
    loop would shift out the last bit (assertion); the model has no such limit. *)
Fixpoint two_power_loop (fuel x y : nat) : nat :=
  match fuel with
  | O => y
  | S fuel' => if decide (y < x) then two_power_loop fuel' x (2 * y) else y
  end.
Definition smallest_two_power_no_smaller_than (x : nat) : nat := two_power_loop x x 1.

(** id_set_queue.h:111-116 *)
Definition new_idset (n : nat) : idset :=
  let o := smallest_two_power_no_smaller_than n in
  mkIdset n None o (replicate (n + o + n mod 2) false).

(** id_set_queue.h:137-149 *)
Fixpoint push_loop (fuel : nat) (d : list bool) (x : nat) : option (list bool) :=
  match fuel with
  | O => None
  | S fuel' =>
      b ← d !! x; _ ← chk (negb b);                 (* :139 *)
      d ← wr d x true;
      if decide (x = 1) then Some d else
      let x := parent x in
      b ← d !! x;
      if (b : bool) then Some d else push_loop fuel' d x
  end.

(** id_set_queue.h:124-150 *)
Definition idset_push (q : idset) (id : nat) : option idset :=
  _ ← chk (bool_decide (id < max_number_of_ids q));
  let m := match min_id q with None => id | Some m => m `min` id end in
  let x := id + offset q in
  b ← data q !! x;
  if (b : bool) then Some (mkIdset (max_number_of_ids q) (Some m) (offset q) (data q))
  else d ← push_loop (S x) (data q) x;
       Some (mkIdset (max_number_of_ids q) (Some m) (offset q) d).

(** id_set_queue.h:153-156 *)
Definition idset_contains (q : idset) (id : nat) : option bool :=
  _ ← chk (bool_decide (id < max_number_of_ids q)); data q !! (offset q + id).
(** id_set_queue.h:159-161 *)
Definition idset_empty (q : idset) : bool := bool_decide (min_id q = None).
(** id_set_queue.h:165-167 *)
Definition idset_peek (q : idset) : option nat := min_id q.

(** id_set_queue.h:178-198: climb while clearing. The result is the data and, if
    the loop was left by [break] (line 192), the node at which it stopped; [None]
    as the inner option is the return at the root (183-186). [asserts] says whether
    the code is compiled with assertions. *)
Fixpoint pop_up (asserts : bool) (fuel : nat) (d : list bool) (x : nat) : option (list bool * option nat) :=
  match fuel with
  | O => None
  | S fuel' =>
      b ← d !! x; _ ← chk (negb asserts || b);                 (* :180 *)
      d ← wr d x false;
      if decide (x = 1) then Some (d, None) else
      if is_smaller_child x then
        s ← d !! other_child x;
        if (s : bool) then Some (d, Some x) else pop_up asserts fuel' d (parent x)
      else
        s ← d !! other_child x; _ ← chk (negb asserts || negb s);    (* :194 *)
        pop_up asserts fuel' d (parent x)
  end.

(** id_set_queue.h:203-211: descend to the smallest set leaf. *)
Fixpoint pop_down (asserts : bool) (fuel off : nat) (d : list bool) (x : nat) : option nat :=
  if decide (off <= x) then Some x else
  match fuel with
  | O => None
  | S fuel' =>
      let x := smaller_child x in
      b ← d !! x;
      let x := if (b : bool) then x else other_child x in
      b ← d !! x; _ ← chk (negb asserts || b);                       (* :210 *)
      pop_down asserts fuel' off d x
  end.

(** id_set_queue.h:171-215. On an empty queue [min_id] is invalid_id = 2^32-1 and
    [min_id + offset] (line 176) wraps to [offset - 1]. The fuel suffices for every
    climb that ends (the node number halves). *)
Definition idset_pop (asserts : bool) (q : idset) : option (option nat * idset) :=
  _ ← chk (negb asserts || negb (idset_empty q));                    (* :172 *)
  let ret := min_id q in
  let x := match ret with Some m => m + offset q | None => offset q - 1 end in
  '(d, stop) ← pop_up asserts (S x) (data q) x;
  match stop with
  | None => Some (ret, mkIdset (max_number_of_ids q) None (offset q) d)
  | Some x =>
      _ ← chk (negb asserts || is_smaller_child x);                  (* :200 *)
      let x := other_child x in
      b ← d !! x; _ ← chk (negb asserts || b);                       (* :202 *)
      x ← pop_down asserts (offset q) (offset q) d x;
      Some (ret, mkIdset (max_number_of_ids q) (Some (x - offset q)) (offset q) d)
  end.

(** id_set_queue.h:218-221; fuel: at most [max_number_of_ids] elements. *)
Fixpoint clear_loop (asserts : bool) (fuel : nat) (q : idset) : option idset :=
  if idset_empty q then Some q else
  match fuel with
  | O => None
  | S fuel' => '(_, q) ← idset_pop asserts q; clear_loop asserts fuel' q
  end.
Definition idset_clear (asserts : bool) (q : idset) : option idset := clear_loop asserts (max_number_of_ids q) q.

Inductive sop := SPush (id : nat) | SPop | SPeek | SContains (id : nat) | SEmpty | SClear.
Inductive sout := TUnit | TId (id : option nat) | TBool (b : bool).
(** One public call (id_set_queue.h:118-221). *)
Definition s_step (asserts : bool) (q : idset) (o : sop) : option (sout * idset) :=
  match o with
  | SPush id => q ← idset_push q id; Some (TUnit, q)
  | SPop => '(id, q) ← idset_pop asserts q; Some (TId id, q)
  | SPeek => Some (TId (idset_peek q), q)
  | SContains id => b ← idset_contains q id; Some (TBool b, q)
  | SEmpty => Some (TBool (idset_empty q), q)
  | SClear => q ← idset_clear asserts q; Some (TUnit, q)
  end.
Fixpoint s_run (asserts : bool) (q : idset) (os : list sop) : option (list sout * idset) :=
  match os with
  | [] => Some ([], q)
  | o :: os => '(r, q) ← s_step asserts q o; '(rs, q) ← s_run asserts q os; Some (r :: rs, q)
  end.
