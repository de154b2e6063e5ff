(** Model of src/protobuf.cpp ([c:]) and src/protobuf.h ([h:]).

    The pointer pair [begin], [end] is the list of the bytes in between; bytes are [N]. [None] is
    undefined behaviour (a shift by 64 or more). Floating-point fields are reported as their
    bytes; the unaligned access through a cast pointer (h:27, h:33) is not judged. *)
From Verif Require Import Base.

(** A function returns or throws. *)
Inductive result (A : Type) := Ret (a : A) | Throw.
Global Arguments Ret {A} a.
Global Arguments Throw {A}.

(** c:15-27 *)
Fixpoint varint_loop (bs : list N) (n : N) (shift : nat) : option (result (N * list N)) :=
  match bs with
  | [] => Some Throw
  | b :: bs' =>
      if N.testbit b 7 then
        if decide (shift = 63 /\ b <> 129%N) then Some Throw
        else
          _ ← chk (bool_decide (shift < 64));
          varint_loop bs' (N.lor n (N.shiftl (N.land b 127) (N.of_nat shift) mod 2 ^ 64)) (shift + 7)
      else
        _ ← chk (bool_decide (shift < 64));
        Some (Ret (N.lor n (N.shiftl (N.land b 127) (N.of_nat shift) mod 2 ^ 64), bs'))%N
  end.
(** c:5-28; the check of c:6-7 is the empty case of the loop *)
Definition decode_varint (bs : list N) : option (result (N * list N)) := varint_loop bs 0 0.

(** c:30-35 *)
Definition zigzag (x : N) : Z := if N.testbit x 0 then (- Z.of_N (N.shiftr x 1) - 1)%Z else Z.of_N (N.shiftr x 1).

(** The calls of the callbacks. *)
Inductive event :=
| EVarint (id v : N)
| EDouble (id : N) (bytes : list N)
| EFloat (id : N) (bytes : list N)
| EString (id : N) (bytes : list N).

(** h:14-49: the calls made, and whether the function returns ([true]) or throws ([false]).
    Each round consumes a byte, so the length of the message is enough fuel. *)
Fixpoint walk_loop (fuel : nat) (bs : list N) : option (list event * bool) :=
  match bs with
  | [] => Some ([], true)
  | _ =>
      match fuel with
      | O => None
      | S fuel =>
          r ← decode_varint bs;
          match r with
          | Throw => Some ([], false)
          | Ret (header, bs) =>
              let id := N.shiftr header 3 in
              match N.land header 7 with
              | 0%N =>
                  r ← decode_varint bs;
                  match r with
                  | Throw => Some ([], false)
                  | Ret (v, bs) => '(es, ok) ← walk_loop fuel bs; Some (EVarint id v :: es, ok)
                  end
              | 1%N =>
                  if decide (length bs < 8) then Some ([], false)
                  else '(es, ok) ← walk_loop fuel (drop 8 bs); Some (EDouble id (take 8 bs) :: es, ok)
              | 5%N =>
                  if decide (length bs < 4) then Some ([], false)
                  else '(es, ok) ← walk_loop fuel (drop 4 bs); Some (EFloat id (take 4 bs) :: es, ok)
              | 2%N =>
                  r ← decode_varint bs;
                  match r with
                  | Throw => Some ([], false)
                  | Ret (len, bs) =>
                      if decide (N.of_nat (length bs) < len)%N then Some ([], false)
                      else '(es, ok) ← walk_loop fuel (drop (N.to_nat len) bs); Some (EString id (take (N.to_nat len) bs) :: es, ok)
                  end
              | _ => Some ([], false)
              end
          end
      end
  end.
Definition walk (bs : list N) : option (list event * bool) := walk_loop (length bs) bs.
