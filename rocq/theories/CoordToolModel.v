(** Model of src/convert_road_dimacs_coordinates.cpp ([c:]).

    As in GraphToolModel, the program is a function from the bytes of the file that it reads to the bytes of the two files that it
    writes; [Throw] means that the program stops with an error message and writes no file, [None] is undefined behaviour. Memory is unlimited.
    What the program stores for the number [k] in the text is the float that is next to [k / 1000000.0]; its four bytes are [encode k], where
    [encode] is an argument of the model. *)
From Verif Require Import Base ProtobufModel ChFileModel VectorIoModel TextModel.
From Coq Require String. Import String.StringSyntax.

(** c:75, [in >> x] for a long long: an optional sign and digits; no digits or a number out of range sets the failbit, which is [None]. *)
Definition read_signed (bits : Z) (l : list N) : option (Z * list N) :=
  let l := skip_spaces l in
  let '(negative, l) := match l with c :: l' => if (c =? 45)%N then (true, l') else if (c =? 43)%N then (false, l') else (false, l) | [] => (false, l) end in
  let '(ds, rest) := span is_digit l in
  match ds with
  | [] => None
  | _ => let x := if negative then (- Z.of_N (digits_value ds))%Z else Z.of_N (digits_value ds) in
      if ((- 2 ^ (bits - 1) <=? x) && (x <? 2 ^ (bits - 1)))%Z then Some (x, rest) else None
  end.
(** c:41-45. [node_count] is [None] as long as it has no value. The numbers of [k_lat] and [k_lon] are millionths. *)
Record kstate := mkKstate { k_count : option N; k_lat : list Z; k_lon : list Z; k_seen : list bool }.
(** c:57-63 *)
Definition read_size (line : list N) : result N :=
  match ('(p, line) ← read_word line; '(aux, line) ← read_word line; '(sp, line) ← read_word line; '(co, line) ← read_word line; Some (p, aux, sp, co, line)) with
  | None => Throw
  | Some (p, aux, sp, co, line) =>
      if bool_decide (p = text "p") && bool_decide (aux = text "aux") && bool_decide (sp = text "sp") && bool_decide (co = text "co") then
        match read_unsigned 32 line with
        | None => Throw
        | Some (n, line) => match read_word line with Some _ => Throw | None => Ret n end
        end
      else Throw
  end.
(** c:69-80. [--node] wraps around. *)
Definition read_position (line : list N) : result (N * Z * Z) :=
  match read_word line with
  | None => Throw
  | Some (v, line) =>
      if bool_decide (v = text "v") then
        match ('(node, line) ← read_unsigned 32 line; '(lon, line) ← read_signed 64 line; '(lat, line) ← read_signed 64 line; Some (node, lon, lat, line)) with
        | None => Throw
        | Some (node, lon, lat, line) =>
            match read_word line with Some _ => Throw | None => Ret (((node + (2 ^ 32 - 1)) mod 2 ^ 32)%N, lon, lat) end
        end
      else Throw
  end.
(** c:49-88. 99 is the character c. *)
Definition coordinates_line (s : kstate) (line : list N) : option (result kstate) :=
  match line with [] => Some (Ret s) | c :: _ =>
  if (c =? 99)%N then Some (Ret s) else
  match k_count s with
  | None => andthen (Some (read_size line)) (fun n =>
      Some (Ret (mkKstate (Some n) (replicate (N.to_nat n) 0%Z) (replicate (N.to_nat n) 0%Z) (replicate (N.to_nat n) false))))
  | Some n => andthen (Some (read_position line)) (fun '(node, x, y) =>
      if (n <=? node)%N then Some Throw else
      b ← k_seen s !! N.to_nat node;
      if b : bool then Some Throw else
      seen ← wr (k_seen s) (N.to_nat node) true; lon ← wr (k_lon s) (N.to_nat node) x; lat ← wr (k_lat s) (N.to_nat node) y;
      Some (Ret (mkKstate (k_count s) lat lon seen)))
  end end.
(** c:48-89 *)
Fixpoint coordinates_lines (s : kstate) (lines : list (list N)) : option (result kstate) :=
  match lines with
  | [] => Some (Ret s)
  | line :: lines => andthen (coordinates_line s line) (fun s => coordinates_lines s lines)
  end.
(** c:91-93. After the exception the loop goes on in the model, but nothing happens any more. *)
Definition check_seen (n : nat) (seen : list bool) : option (result unit) :=
  for_range 0 n (fun i r => andthen (Some r) (fun _ => b ← seen !! i; Some (if b : bool then Ret () else Throw))) (Ret ()).
(** c:34-100: the latitude file and the longitude file *)
Definition convert_road_dimacs_coordinates (encode : Z -> list N) (file : list N) : option (result (list N * list N)) :=
  andthen (coordinates_lines (mkKstate None [] [] []) (getlines file)) (fun s =>
  n ← k_count s;
  andthen (check_seen (N.to_nat n) (k_seen s)) (fun _ =>
  Some (Ret (save_vector encode (k_lat s), save_vector encode (k_lon s))))).
