(** Model of reading in src/file_data_source.cpp ([c:]) from a device on which reading can fail, in both variants: [posix] says whether the variant of c:20-93 or that of
    c:97-172 (if ROUTING_KIT_NO_POSIX is defined) is compiled. One object with an open file whose content does not change; opening, closing, moving and several
    objects are in FileSourceModel. The buffer of FILE is left out: fread asks the system for the bytes that are missing. *)
From Verif Require Import Base.

(** What the system does at a call of ::read (c:86): gives at most that many bytes, but at least one unless the file has ended or none is asked for; or fails, for example because of a
    bad block or because a signal came. After the last of a list of these, it gives all that is asked for. *)
Inductive event := Give (most : nat) | Fail.
(** The position, the flag that ferror returns (c:167; only used for FILE), and what the system will do. *)
Record source := mkSource { s_pos : nat; s_err : bool; s_events : list event }.
(** The answers: an exception (c:89, 169), the bytes, or nothing (c:64, 138). *)
Inductive answer := Thrown | Bytes (bs : list N) | Done.
Inductive sop := Read (to_read : nat) (* c:176, 182 *) | Rewind (* c:64-69, 138-141 *).

Section source.
  Context (posix : bool) (content : list N).
  (** A call of ::read for [n] bytes at position [pos]: the bytes or [None], which is -1. *)
  Definition sys_read (pos n : nat) (events : list event) : option (list N) * list event :=
    match events with
    | [] => (Some (take n (drop pos content)), [])
    | Give most :: events => (Some (take (Nat.min n (Nat.max 1 most)) (drop pos content)), events)
    | Fail :: events => (None, events)
    end.
  (** fread of the C library (c:166): calls ::read until all is there, the file has ended or there is an error, and returns what it has. The fuel is [n]: each call that is
      followed by another one gives a byte. *)
  Fixpoint fread (fuel n : nat) (s : source) : list N * source :=
    match fuel with
    | O => ([], s)
    | S fuel =>
        match n with
        | O => ([], s)
        | _ =>
            match sys_read (s_pos s) n (s_events s) with
            | (None, ev) => ([], mkSource (s_pos s) true ev)
            | (Some [], ev) => ([], mkSource (s_pos s) (s_err s) ev)
            | (Some bs, ev) =>
                let '(rest, s) := fread fuel (n - length bs) (mkSource (s_pos s + length bs) (s_err s) ev) in
                (bs ++ rest, s)
            end
        end
    end.
  (** c:85-92 *)
  Definition posix_my_read (n : nat) (s : source) : source * answer :=
    match sys_read (s_pos s) n (s_events s) with
    | (None, ev) => (mkSource (s_pos s) (s_err s) ev, Thrown)
    | (Some bs, ev) => (mkSource (s_pos s + length bs) (s_err s) ev, Bytes bs)
    end.
  (** c:165-171 *)
  Definition file_my_read (n : nat) (s : source) : source * answer :=
    let '(bs, s) := fread n n s in
    if s_err s then (s, Thrown) else (s, Bytes bs).
  (** c:64-69 and c:138-141; fseek does not clear the flag of ferror. *)
  Definition do_rewind (s : source) : source * answer := (mkSource 0 (s_err s) (s_events s), Done).
  (** An operation, and a program with its answers; the caller catches the exceptions. *)
  Definition step (s : source) (op : sop) : source * answer :=
    match op with
    | Read n => if posix then posix_my_read n s else file_my_read n s
    | Rewind => do_rewind s
    end.
  Fixpoint run (s : source) (ops : list sop) : source * list answer :=
    match ops with
    | [] => (s, [])
    | op :: ops => let '(s, a) := step s op in let '(s, l) := run s ops in (s, a :: l)
    end.
End source.
(** After opening (c:47, 123) *)
Definition opened (events : list event) : source := mkSource 0 false events.
