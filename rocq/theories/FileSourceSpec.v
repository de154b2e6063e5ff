(** Who owns which descriptor, and what is read from it. *)
From stdpp Require Import gmap.
From Verif Require Import Base FileSourceModel.

(** The system only chooses unused descriptors. *)
Definition unused (pick : gmap nat ofile -> nat) : Prop := forall t, t !! pick t = None.
(** Every variable has a descriptor of its own. *)
Definition owners (s : fstate) : Prop :=
  (forall o fd, fs_objs s !! o = Some (Some fd) -> is_Some (fs_table s !! fd)) /\
  (forall o p fd, fs_objs s !! o = Some (Some fd) -> fs_objs s !! p = Some (Some fd) -> o = p).
(** No descriptor is open without a variable that will close it. *)
Definition no_leak (s : fstate) : Prop := forall fd, is_Some (fs_table s !! fd) -> exists o, fs_objs s !! o = Some (Some fd).
(** Nothing is moved into a variable that has an open file. *)
Fixpoint careful posix files pick (s : fstate) (ops : list fop) : Prop :=
  match ops with
  | [] => True
  | op :: ops =>
      match op with FMove o _ => fs_objs s !! o = Some None | _ => True end /\
      forall s' a, fs_step posix files pick s op = Some (s', a) -> careful posix files pick s' ops
  end.
(** Variable [o] has a file with this content open, at this position. *)
Definition has_file (s : fstate) (o : nat) (fd : nat) (content : list N) (pos : nat) : Prop :=
  fs_objs s !! o = Some (Some fd) /\ fs_table s !! fd = Some (mkOfile content pos).
(** The operation opens, closes, moves or rewinds variable [o]. *)
Definition changes (o : nat) (op : fop) : Prop :=
  match op with
  | FNewMove p | FOpen p _ | FClose p | FRewind p => p = o
  | FMove p q => p = o \/ q = o
  | _ => False
  end.
(** The bytes that are read from a descriptor. *)
Definition reads (fd : nat) (s : fstate) (op : fop) : Prop :=
  match op with
  | FRead o _ _ => fs_objs s !! o = Some (Some fd)
  | FReadWith r _ _ => fs_readers s !! r = Some (Some fd)
  | _ => False
  end.
Inductive bytes_read posix files pick (fd : nat) : fstate -> list fop -> list N -> Prop :=
  | br_nil s : bytes_read posix files pick fd s [] []
  | br_read s op ops s' bs rest : reads fd s op -> fs_step posix files pick s op = Some (s', ABytes bs) -> bytes_read posix files pick fd s' ops rest -> bytes_read posix files pick fd s (op :: ops) (bs ++ rest)
  | br_other s op ops s' a rest : ~ reads fd s op -> fs_step posix files pick s op = Some (s', a) -> bytes_read posix files pick fd s' ops rest -> bytes_read posix files pick fd s (op :: ops) rest.
