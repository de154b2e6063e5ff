(** Model of the programs that convert graphs: src/convert_road_dimacs_graph.cpp ([c:]), src/export_road_dimacs_graph.cpp ([e:])
    and src/randomly_permute_nodes.cpp ([p:]).

    As in DistanceToolModel, a program is a function from the bytes of the files that it reads to the bytes of the files
    that it writes; all files exist and can be written; [Throw] means that the program stops with an error message and
    writes no file, [None] is undefined behaviour. Vectors have less than 2^32 elements. *)
From Verif Require Import Base ProtobufModel ChFileModel VectorIoModel PermutationModel SortModel VerifyModel DistanceToolModel TextModel.
From Coq Require String. Import String.StringSyntax.

(** ** convert_road_dimacs_graph.cpp *)
(** c:40-47. The header is [None] as long as it was not read: the two counts have no value then. *)
Record cstate := mkCstate { c_header : option (N * N); c_next : N; c_tail : list nat; c_head : list nat; c_weight : list N }.
(** c:56-64 *)
Definition read_header (line : list N) : result (N * N) :=
  match ('(p, line) ← read_word line; '(sp, line) ← read_word line; '(n, line) ← read_unsigned 32 line; '(m, _) ← read_unsigned 32 line; Some (p, sp, n, m)) with
  | None => Throw
  | Some (p, sp, n, m) => if bool_decide (p = text "p") && bool_decide (sp = text "sp") then Ret (n, m) else Throw
  end.
(** c:66-73. [--h] and [--t] wrap around. *)
Definition read_arc (node_count : N) (line : list N) : result (nat * nat * N) :=
  match ('(a, line) ← read_word line; '(t, line) ← read_unsigned 32 line; '(h, line) ← read_unsigned 32 line; '(w, _) ← read_unsigned 32 line; Some (a, t, h, w)) with
  | None => Throw
  | Some (a, t, h, w) =>
      let h := ((h + (2 ^ 32 - 1)) mod 2 ^ 32)%N in
      let t := ((t + (2 ^ 32 - 1)) mod 2 ^ 32)%N in
      if negb (bool_decide (a = text "a")) || (node_count <=? h)%N || (node_count <=? t)%N then Throw else Ret (N.to_nat t, N.to_nat h, w)
  end.
(** c:50-80. 99 is the character c. *)
Definition convert_line (s : cstate) (line : list N) : option (result cstate) :=
  match line with [] => Some (Ret s) | c :: _ =>
  if (c =? 99)%N then Some (Ret s) else
  match c_header s with
  | None => andthen (Some (read_header line)) (fun '(n, m) =>
      Some (Ret (mkCstate (Some (n, m)) (c_next s) (replicate (N.to_nat m) 0) (replicate (N.to_nat m) 0) (replicate (N.to_nat m) 0%N))))
  | Some (n, m) => andthen (Some (read_arc n line)) (fun '(t, h, w) =>
      let next := ((c_next s + 1) mod 2 ^ 32)%N in
      if (c_next s <? m)%N then
        head ← wr (c_head s) (N.to_nat (c_next s)) h; tail ← wr (c_tail s) (N.to_nat (c_next s)) t; weight ← wr (c_weight s) (N.to_nat (c_next s)) w;
        Some (Ret (mkCstate (c_header s) next tail head weight))
      else Some (Ret (mkCstate (c_header s) next (c_tail s) (c_head s) (c_weight s))))
  end end.
(** c:48-81 *)
Fixpoint convert_lines (s : cstate) (lines : list (list N)) : option (result cstate) :=
  match lines with
  | [] => Some (Ret s)
  | line :: lines => andthen (convert_line s line) (fun s => convert_lines s lines)
  end.
(** c:90-101 *)
Definition order_arcs (node_count : nat) (tail head : list nat) (weight : list N) : option (list nat * list nat * list N) :=
  p ← compute_inverse_stable_sort_permutation_using_key id head node_count;
  tail ← apply_inverse_permutation p tail;
  q ← compute_inverse_stable_sort_permutation_using_key id tail node_count;
  tail ← apply_inverse_permutation q tail;
  r ← chain_permutation_first_left_then_right q p;
  head ← apply_inverse_permutation r head;
  weight ← apply_inverse_permutation r weight;
  first_out ← invert_vector tail node_count;
  Some (first_out, head, weight).
(** c:40-108. Without a header the counts are read without having a value. For 2^32 - 1 nodes the size of first_out wraps around
    (inverse_vector.h:22), which is not modelled but counted as undefined. *)
Definition convert_road_dimacs_graph (dimacs_file : list N) : option (result (list N * list N * list N)) :=
  andthen (convert_lines (mkCstate None 0 [] [] []) (getlines dimacs_file)) (fun s =>
  '(n, m) ← c_header s;
  andthen (throw_if (negb (c_next s =? m)%N)) (fun _ =>
  _ ← chk (n <? 2 ^ 32 - 1)%N;
  '(first_out, head, weight) ← order_arcs (N.to_nat n) (c_tail s) (c_head s) (c_weight s);
  Some (Ret (save_ids first_out, save_ids head, save_words weight)))).

(** ** export_road_dimacs_graph.cpp *)
(** e:64 *)
Definition print_header (node_count arc_count : nat) : list N :=
  text "p sp " ++ print_unsigned (N.of_nat node_count) ++ text " " ++ print_unsigned (N.of_nat arc_count) ++ [10%N].
(** e:66; the sums wrap around *)
Definition print_arc (t h : nat) (w : N) : list N :=
  text "a " ++ print_unsigned ((N.of_nat t + 1) mod 2 ^ 32) ++ text " " ++ print_unsigned ((N.of_nat h + 1) mod 2 ^ 32) ++ text " " ++ print_unsigned w ++ [10%N].
(** e:65-67 *)
Definition print_arcs (tail head : list nat) (weight : list N) (out : list N) : option (list N) :=
  for_range 0 (length head) (fun i out => t ← tail !! i; h ← head !! i; w ← weight !! i; Some (out ++ print_arc t h w)) out.
(** e:47-56, p:47-57: the checks, in this order *)
Definition check_arrays (first_out head : list nat) (weight : list (list N)) : option (result ()) :=
  front ← first_out !! 0; back ← last first_out;
  andthen (throw_if (negb (front =? 0))) (fun _ =>
  andthen (throw_if (negb (back =? length head))) (fun _ =>
  andthen (throw_if (match head with [] => true | _ => false end)) (fun _ =>
  m ← max_element_of head;
  andthen (throw_if (length first_out - 1 <=? m)) (fun _ =>
  throw_if (existsb (fun w => negb (length w =? length head)) weight))))).
(** e:37-69 *)
Definition export_road_dimacs_graph (first_out_file head_file weight_file : list N) : option (result (list N)) :=
  andthen (load_ids first_out_file) (fun first_out =>
  andthen (load_ids head_file) (fun head =>
  andthen (load_words weight_file) (fun weight =>
  tail ← invert_inverse_vector first_out;
  andthen (check_arrays first_out head [weight]) (fun _ =>
  out ← print_arcs tail head weight (print_header (length first_out - 1) (length head));
  Some (Ret out))))).

(** ** randomly_permute_nodes.cpp *)
(** sort.h:223-241 at is_stable=false, and :244-247; the fallback is :115-118. [std_sort less l] stands for std::sort, whose order among equal keys is unspecified. *)
Definition compute_inverse_sort_permutation_using_key (std_sort : (nat -> nat -> bool) -> list nat -> list nat) (v : list nat) (key_count : nat) : option (list nat) :=
  if use_bucket_sort v key_count then bucket_inverse_sort_permutation id v key_count
  else invert_permutation (std_sort (key_less id v) (seq 0 (length v))).
(** p:39-40, 77-78, 89-90: loops over the weights *)
Fixpoint load_all (files : list (list N)) : option (result (list (list N))) :=
  match files with
  | [] => Some (Ret [])
  | f :: files => andthen (load_words f) (fun w => andthen (load_all files) (fun ws => Some (Ret (w :: ws))))
  end.
(** p:77-78 *)
Fixpoint permute_all (p : list nat) (weight : list (list N)) : option (list (list N)) :=
  match weight with
  | [] => Some []
  | w :: ws => w ← apply_inverse_permutation p w; ws ← permute_all p ws; Some (w :: ws)
  end.
(** p:65-81. [node_perm] is the random permutation of p:64 (permutation.h:155-160). *)
Definition permute_nodes (std_sort : (nat -> nat -> bool) -> list nat -> list nat) (node_perm : list nat) (node_count : nat) (first_out head : list nat) (weight : list (list N)) :
    option (list nat * list nat * list (list N)) :=
  tail ← invert_inverse_vector first_out;
  tail ← inplace_apply_permutation_to_elements_of node_perm tail;
  head ← inplace_apply_permutation_to_elements_of node_perm head;
  p ← compute_inverse_sort_permutation_using_key std_sort head node_count;
  tail ← apply_inverse_permutation p tail;
  q ← compute_inverse_stable_sort_permutation_using_key id tail node_count;
  tail ← apply_inverse_permutation q tail;
  p ← chain_permutation_first_left_then_right q p;
  head ← apply_inverse_permutation p head;
  weight ← permute_all p weight;
  first_out ← invert_vector tail node_count;
  Some (first_out, head, weight).
(** p:36-90. [random n] is the random permutation of [n] elements. *)
Definition randomly_permute_nodes (std_sort : (nat -> nat -> bool) -> list nat -> list nat) (random : nat -> list nat) (first_out_file head_file : list N) (weight_files : list (list N)) :
    option (result (list N * list N * list (list N))) :=
  andthen (load_ids first_out_file) (fun first_out =>
  andthen (load_ids head_file) (fun head =>
  andthen (load_all weight_files) (fun weight =>
  andthen (check_arrays first_out head weight) (fun _ =>
  let node_count := length first_out - 1 in
  '(first_out, head, weight) ← permute_nodes std_sort (random node_count) node_count first_out head weight;
  Some (Ret (save_ids first_out, save_ids head, map save_words weight)))))).
