(** Model of the parts of the C++ standard library with which the programs read and print text: std::getline,
    [>>] into a std::string or an unsigned number, and [<<] of an unsigned number. These have no source in /repo; the lines at
    which the programs use them are cited at each definition. Text is a list of bytes. The locale is "C". *)
From Verif Require Import Base.
From Coq Require Import String Ascii.

(** The bytes of a string literal, e.g. "p sp " in export_road_dimacs_graph.cpp:64 *)
Definition text (s : string) : list N := N_of_ascii <$> list_ascii_of_string s.
(** std::isspace, used by [>>], e.g. convert_road_dimacs_graph.cpp:57 *)
Definition is_space (c : N) : bool := ((c =? 32) || ((9 <=? c) && (c <=? 13)))%N.
(** std::isdigit, used by [>>] into a number, e.g. convert_road_dimacs_graph.cpp:57 *)
Definition is_digit (c : N) : bool := ((48 <=? c) && (c <=? 57))%N.

(** [while(std::getline(in, line))], e.g. convert_road_dimacs_graph.cpp:48: all lines without their newline characters. A last line
    without a newline counts if it is not empty. [line] is what was read of the current line, reversed. *)
Fixpoint getlines_from (line : list N) (input : list N) : list (list N) :=
  match input with
  | [] => match line with [] => [] | _ => [rev line] end
  | c :: input => if (c =? 10)%N then rev line :: getlines_from [] input else getlines_from (c :: line) input
  end.
(** e.g. convert_road_dimacs_graph.cpp:48 *)
Definition getlines (input : list N) : list (list N) := getlines_from [] input.

(** The longest prefix of characters with a property, and the rest; e.g. convert_road_dimacs_graph.cpp:57 *)
Fixpoint span (f : N -> bool) (l : list N) : list N * list N :=
  match l with
  | [] => ([], [])
  | c :: l' => if f c then let '(a, b) := span f l' in (c :: a, b) else ([], l)
  end.
(** e.g. convert_road_dimacs_graph.cpp:57 *)
Definition skip_spaces (l : list N) : list N := snd (span is_space l).
(** [in >> s] for a std::string, e.g. convert_road_dimacs_graph.cpp:57; [None] is the failbit. *)
Definition read_word (l : list N) : option (list N * list N) :=
  let '(w, rest) := span (fun c => negb (is_space c)) (skip_spaces l) in
  match w with [] => None | _ => Some (w, rest) end.
(** The value of decimal digits, e.g. convert_road_dimacs_graph.cpp:57 *)
Definition digits_value (ds : list N) : N := fold_left (fun a c => 10 * a + (c - 48))%N ds 0%N.
(** [in >> x] for an unsigned number of [bits] bits, e.g. convert_road_dimacs_graph.cpp:57: an optional sign and digits; a negative number
    wraps around; no digits or a number that is too large sets the failbit, which is [None]. *)
Definition read_unsigned (bits : N) (l : list N) : option (N * list N) :=
  let l := skip_spaces l in
  let '(negative, l) := match l with c :: l' => if (c =? 45)%N then (true, l') else if (c =? 43)%N then (false, l') else (false, l) | [] => (false, l) end in
  let '(ds, rest) := span is_digit l in
  match ds with
  | [] => None
  | _ => let v := digits_value ds in
      if (v <? 2 ^ bits)%N then Some ((if negative then (2 ^ bits - v) mod 2 ^ bits else v)%N, rest) else None
  end.
(** [out << x] for an unsigned number, e.g. export_road_dimacs_graph.cpp:64. Numbers of 64 bits have at most 20 digits. *)
Fixpoint print_digits (fuel : nat) (x : N) (acc : list N) : list N :=
  match fuel with
  | O => acc
  | S fuel => let acc := (48 + x mod 10)%N :: acc in if (x / 10 =? 0)%N then acc else print_digits fuel (x / 10)%N acc
  end.
(** e.g. export_road_dimacs_graph.cpp:64 *)
Definition print_unsigned (x : N) : list N := print_digits 20 x [].
