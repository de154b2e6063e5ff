(** What is asked of the asynchronous reader, in terms of what is seen from outside. *)
From Verif Require Import Base AsyncReaderModel.

(** What byte_source has handed over, and what the calls of read have returned. *)
Definition delivered_by (ev : ev) : list N := match ev with Deliver bs => bs | _ => [] end.
Definition delivered (evs : list ev) : list N := concat (map delivered_by evs).
Definition returned_by (ev : ev) : list N := match ev with Block _ bs => bs | _ => [] end.
Definition returned (evs : list ev) : list N := concat (map returned_by evs).

(** The call of a function of the object. *)
Definition is_call (ev : ev) : Prop := match ev with Call _ | Destroy => True | _ => False end.

(** The thread that uses the object is in read, or in the destructor. *)
Definition in_read (s : rd) : Prop := match r_m s with MLock _ | MCheck _ | MBlock _ | MSleep _ | MWake _ => True | _ => False end.
Definition in_dtor (s : rd) : Prop := match r_m s with MDtor | MNotify | MJoin => True | _ => False end.

(** Steps that the code does not decide about: a wake-up without a notification, and a write of byte_source
    before it returns. *)
Definition outside (ev : ev) : bool := match ev with Spurious | Scribble => true | _ => false end.

(** Executions all of whose states satisfy [P]. *)
Inductive run_in (B : nat) (P : rd -> Prop) : rd -> list ev -> rd -> Prop :=
  | run_in_nil s : P s -> run_in B P s [] s
  | run_in_snoc s evs s' ev s'' : run_in B P s evs s' -> step B s' ev s'' -> P s'' -> run_in B P s (evs ++ [ev]) s''.

Definition busy (s : rd) : Prop := in_read s \/ in_dtor s.

Definition is_block (ev : ev) : bool := match ev with Block _ _ => true | _ => false end.

(** The bytes that the worker may write to before its next step: those it has given to byte_source, or those that are
    written by memcpy. *)
Definition worker_writes (B : nat) (s : rd) (i : nat) : Prop :=
  match r_w s with
  | WRead => r_end s <= i < r_end s + B
  | WStore bs => r_term s = false /\
      ((5 * B <= r_end s + length bs /\ i < r_end s + length bs - 5 * B) \/
       (r_end s < B /\ 5 * B + r_end s <= i < 5 * B + (B `min` (r_end s + length bs))))
  | _ => False
  end.
