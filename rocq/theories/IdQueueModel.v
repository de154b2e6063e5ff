(** Model of include/routingkit/id_queue.h, class MinIDQueue: 4-ary heap with a
    position array. [None] is undefined behaviour or a violated assertion.
    Keys are only compared, never added, so 32-bit wrap plays no role. *)
From Verif Require Import Base.

(** id_queue.h:173-176. [id_pos] holds invalid_id as [None]; [heap] has id_count
    entries of which the first [heap_size] are live. *)
Record queue := mkQueue {
  id_pos : list (option nat);
  heap : list (nat * N);
  heap_size : nat }.

(** id_queue.h:24-27 *)
Definition new_queue (id_count : nat) : queue :=
  mkQueue (replicate id_count None) (replicate id_count (0, 0%N)) 0.

(** id_queue.h:30-32 *)
Definition q_empty (q : queue) : bool := bool_decide (heap_size q = 0).
(** id_queue.h:35-37 *)
Definition q_size (q : queue) : nat := heap_size q.
(** id_queue.h:45-48 *)
Definition contains_id (q : queue) (id : nat) : option bool :=
  p ← id_pos q !! id; Some (bool_decide (p <> None)).

(** id_queue.h:51-55 *)
Definition clear (q : queue) : option queue :=
  ip ← for_range 0 (heap_size q)
        (fun i ip => e ← heap q !! i; wr ip (fst e) None) (id_pos q);
  Some (mkQueue ip (heap q) 0).

(** id_queue.h:66-70 *)
Definition get_key (q : queue) (id : nat) : option N :=
  p ← id_pos q !! id; p ← p; e ← heap q !! p; Some (snd e).

(** id_queue.h:73-76 *)
Definition peek (q : queue) : option (nat * N) :=
  _ ← chk (negb (q_empty q)); heap q !! 0.

(** id_queue.h:145-146 and 167-168: swap two heap entries and their positions. *)
Definition swap_entries (q : queue) (i j : nat) : option queue :=
  x ← heap q !! i; y ← heap q !! j;
  h ← wr (heap q) i y; h ← wr h j x;
  a ← id_pos q !! fst y; b ← id_pos q !! fst x;
  ip ← wr (id_pos q) (fst y) b; ip ← wr ip (fst x) a;
  Some (mkQueue ip h (heap_size q)).

(** id_queue.h:141-150. The loop walks up to the root even if nothing is swapped. *)
Fixpoint move_up_in_tree (fuel : nat) (q : queue) (pos : nat) : option queue :=
  if decide (pos = 0) then Some q else
  match fuel with
  | O => None
  | S fuel' =>
      let parent := (pos - 1) / 4 in
      x ← heap q !! parent; y ← heap q !! pos;
      q ← (if decide (snd y < snd x)%N then swap_entries q pos parent else Some q);
      move_up_in_tree fuel' q parent
  end.

(** id_queue.h:157-162 *)
Definition smallest_child (q : queue) (pos : nat) : option nat :=
  for_range (4 * pos + 2) ((4 * pos + 5) `min` heap_size q)
    (fun c s => x ← heap q !! s; y ← heap q !! c;
       Some (if decide (snd y < snd x)%N then c else s)) (4 * pos + 1).

(** id_queue.h:152-171 *)
Fixpoint move_down_in_tree (fuel : nat) (q : queue) (pos : nat) : option queue :=
  match fuel with
  | O => None
  | S fuel' =>
      let first_child := 4 * pos + 1 in
      if decide (heap_size q <= first_child) then Some q else
      s ← smallest_child q pos;
      x ← heap q !! s; y ← heap q !! pos;
      if decide (snd y <= snd x)%N then Some q else
      q ← swap_entries q pos s;
      move_down_in_tree fuel' q s
  end.

(** id_queue.h:79-89. Lines 82-83 swap key and id of the two entries one after the
    other; here the pair is swapped. *)
Definition pop (q : queue) : option ((nat * N) * queue) :=
  _ ← chk (negb (q_empty q));
  let hs := heap_size q - 1 in
  x ← heap q !! 0; y ← heap q !! hs;
  h ← wr (heap q) 0 y; h ← wr h hs x;
  e0 ← h !! 0; ip ← wr (id_pos q) (fst e0) (Some 0);
  e1 ← h !! hs; ip ← wr ip (fst e1) None;
  q ← move_down_in_tree (S hs) (mkQueue ip h hs) 0;
  e ← heap q !! hs;
  Some (e, q).

(** id_queue.h:93-102 *)
Definition push (q : queue) (p : nat * N) : option queue :=
  c ← contains_id q (fst p); _ ← chk (negb c);
  let pos := heap_size q in
  h ← wr (heap q) pos p;
  ip ← wr (id_pos q) (fst p) (Some pos);
  move_up_in_tree pos (mkQueue ip h (S pos)) pos.

(** id_queue.h:107-120 *)
Definition decrease_key (q : queue) (p : nat * N) : option (bool * queue) :=
  pos ← id_pos q !! fst p; pos ← pos;
  e ← heap q !! pos;
  if decide (snd p < snd e)%N then
    h ← wr (heap q) pos (fst e, snd p);
    q ← move_up_in_tree pos (mkQueue (id_pos q) h (heap_size q)) pos;
    Some (true, q)
  else Some (false, q).

(** id_queue.h:125-138 *)
Definition increase_key (q : queue) (p : nat * N) : option (bool * queue) :=
  pos ← id_pos q !! fst p; pos ← pos;
  e ← heap q !! pos;
  if decide (snd e < snd p)%N then
    h ← wr (heap q) pos (fst e, snd p);
    q ← move_down_in_tree (S (heap_size q)) (mkQueue (id_pos q) h (heap_size q)) pos;
    Some (true, q)
  else Some (false, q).

(** Histories of public operations. *)
Inductive qop := OPush (id : nat) (k : N) | OPop | ODecrease (id : nat) (k : N) | OIncrease (id : nat) (k : N)
  | OClear | OContains (id : nat) | OGetKey (id : nat) | OPeek | OSize | OEmpty.
Inductive qout := RUnit | RPair (id : nat) (k : N) | RBool (b : bool) | RKey (k : N) | RNat (n : nat).

(** One public call (id_queue.h:30-138). *)
Definition q_step (q : queue) (o : qop) : option (qout * queue) :=
  match o with
  | OPush id k => q ← push q (id, k); Some (RUnit, q)
  | OPop => '((id, k), q) ← pop q; Some (RPair id k, q)
  | ODecrease id k => '(b, q) ← decrease_key q (id, k); Some (RBool b, q)
  | OIncrease id k => '(b, q) ← increase_key q (id, k); Some (RBool b, q)
  | OClear => q ← clear q; Some (RUnit, q)
  | OContains id => b ← contains_id q id; Some (RBool b, q)
  | OGetKey id => k ← get_key q id; Some (RKey k, q)
  | OPeek => '(id, k) ← peek q; Some (RPair id k, q)
  | OSize => Some (RNat (q_size q), q)
  | OEmpty => Some (RBool (q_empty q), q)
  end.
Fixpoint q_run (q : queue) (os : list qop) : option (list qout * queue) :=
  match os with
  | [] => Some ([], q)
  | o :: os => '(r, q) ← q_step q o; '(rs, q) ← q_run q os; Some (r :: rs, q)
  end.
