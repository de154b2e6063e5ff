(** Several objects of the classes MinIDQueue (include/routingkit/id_queue.h:18-177), TimestampFlags
    (include/routingkit/timestamp_flag.h:8-37) and IDSetMinQueue (include/routingkit/id_set_queue.h:14-229):
    default construction, construction, copying, moving and swapping. The classes declare neither copy nor
    move operations, so the compiler defines them member by member: a std::vector that was moved from is empty
    (also after a move to itself, as with libstdc++), and a number that was moved from keeps its value. *)
From Verif Require Import Base IdQueueModel IdSetModel.
From stdpp Require Export gmap.

(** Programs with variables for objects. [CMove x y] is both [x = std::move(y)] and the declaration
    [T x(std::move(y))]; the same with the others. *)
Inductive ocmd (Op : Type) := CDefault (x : nat) | CNew (x n : nat) | CCopy (x y : nat) | CMove (x y : nat) | CSwap (x y : nat) | CCall (x : nat) (o : Op).
Arguments CDefault {_}. Arguments CNew {_}. Arguments CCopy {_}. Arguments CMove {_}. Arguments CSwap {_}. Arguments CCall {_}.

Section class.
  (** A class: one call, the constructor with a number of ids, the default constructor, and what moving leaves behind. *)
  Context {T Op Out : Type} (step : T -> Op -> option (Out * T)) (fresh : nat -> T) (dflt : T) (moved : T -> T).
  (** One command. std::swap moves three times and id_queue.h:57-62 swaps the members; both exchange all members. *)
  Definition o_step (st : gmap nat T) (c : ocmd Op) : option (option Out * gmap nat T) :=
    match c with
    | CDefault x => Some (None, <[x := dflt]> st)
    | CNew x n => Some (None, <[x := fresh n]> st)
    | CCopy x y => v ← st !! y; Some (None, <[x := v]> st)
    | CMove x y => v ← st !! y; Some (None, <[y := moved v]> (<[x := v]> st))
    | CSwap x y => v ← st !! x; w ← st !! y; Some (None, <[x := w]> (<[y := v]> st))
    | CCall x o => v ← st !! x; '(r, v) ← step v o; Some (Some r, <[x := v]> st)
    end.
  Fixpoint o_run (st : gmap nat T) (p : list (ocmd Op)) : option (list (option Out) * gmap nat T) :=
    match p with
    | [] => Some ([], st)
    | c :: p => '(r, st) ← o_step st c; '(rs, st) ← o_run st p; Some (r :: rs, st)
    end.
End class.

(** ** MinIDQueue *)
(** Calls: those of IdQueueModel, and id_count (id_queue.h:40-42). *)
Inductive qcall := QOp (o : qop) | QCount.
Definition qc_step (q : queue) (o : qcall) : option (qout * queue) :=
  match o with QOp o => q_step q o | QCount => Some (RNat (length (id_pos q)), q) end.
(** id_queue.h:22 *)
Definition queue_default : queue := mkQueue [] [] 0.
(** id_queue.h:173-176 after a move *)
Definition queue_moved (q : queue) : queue := mkQueue [] [] (heap_size q).
Definition queue_run : gmap nat queue -> list (ocmd qcall) -> option (list (option qout) * gmap nat queue) := o_run qc_step new_queue queue_default queue_moved.

(** ** TimestampFlags *)
(** Calls: those of IdSetModel, and is_set. *)
Inductive fcall := FOp (o : fop) | FIsSet (id : nat).
Definition fc_step (f : flags) (o : fcall) : option (option bool * flags) :=
  match o with FOp o => f ← f_step f o; Some (None, f) | FIsSet id => b ← is_set f id; Some (Some b, f) end.
(** timestamp_flag.h:10. current_timestamp is not initialised: [g] is arbitrary. (Reading it, as reset_all does, is
    undefined by the letter of the standard; here it is any value.) *)
Definition flags_default (g : N) : flags := mkFlags [] g.
(** timestamp_flag.h:35-36 after a move *)
Definition flags_moved (f : flags) : flags := mkFlags [] (current_timestamp f).
Definition flags_run (g : N) : gmap nat flags -> list (ocmd fcall) -> option (list (option (option bool)) * gmap nat flags) :=
  o_run fc_step new_flags (flags_default g) flags_moved.

(** ** IDSetMinQueue *)
(** Calls: those of IdSetModel, and id_count (id_set_queue.h:118-120). *)
Inductive scall := SOp (o : sop) | SCount.
Definition sc_step (asserts : bool) (q : idset) (o : scall) : option ((sout + nat) * idset) :=
  match o with SOp o => '(r, q) ← s_step asserts q o; Some (inl r, q) | SCount => Some (inr (max_number_of_ids q), q) end.
(** id_set_queue.h:108. No number is initialised: they are those of [g]. *)
Definition idset_default (g : idset) : idset := mkIdset (max_number_of_ids g) (min_id g) (offset g) [].
(** id_set_queue.h:225-228 after a move *)
Definition idset_moved (q : idset) : idset := mkIdset (max_number_of_ids q) (min_id q) (offset q) [].
Definition idset_run (asserts : bool) (g : idset) : gmap nat idset -> list (ocmd scall) -> option (list (option (sout + nat)) * gmap nat idset) :=
  o_run (sc_step asserts) new_idset (idset_default g) idset_moved.
