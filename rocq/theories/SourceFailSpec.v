(** How a stream of bytes behaves that loses nothing. *)
From Verif Require Import Base SourceFailModel.

(** [serves content whole pos ops answers pos']: from position [pos] on the answers are those of a stream, in which an exception is without effect. With [whole] as many bytes are given
    as there are. *)
Inductive serves (content : list N) (whole : bool) : nat -> list sop -> list answer -> nat -> Prop :=
  | sv_nil pos : serves content whole pos [] [] pos
  | sv_throw pos n ops l pos' : serves content whole pos ops l pos' -> serves content whole pos (Read n :: ops) (Thrown :: l) pos'
  | sv_bytes pos n bs later ops l pos' : drop pos content = bs ++ later -> length bs <= n -> (bs = [] -> n = 0 \/ later = []) -> (whole = true -> length bs = n \/ later = []) ->
      serves content whole (pos + length bs) ops l pos' -> serves content whole pos (Read n :: ops) (Bytes bs :: l) pos'
  | sv_rewind pos ops l pos' : serves content whole 0 ops l pos' -> serves content whole pos (Rewind :: ops) (Done :: l) pos'.
(** The number of exceptions, and of errors of the system *)
Definition thrown (l : list answer) : nat := length (List.filter (fun a => match a with Thrown => true | _ => false end) l).
Definition errors (l : list event) : nat := length (List.filter (fun e => match e with Fail => true | _ => false end) l).
(** All bytes that were returned *)
Definition returned (l : list answer) : list N := concat (map (fun a => match a with Bytes bs => bs | _ => [] end) l).
