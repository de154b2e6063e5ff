(** Graphs as text and as files, and graphs with renamed nodes. *)
From Verif Require Import Base GraphSpec PathSpec UtilSpec DistanceToolSpec TextSpec.

(** Arcs are triples of tail, head and weight. The arrays store the arcs in this order. *)
Definition stores (n : nat) (fo head : list nat) (w : list N) (arcs : list (nat * nat * N)) : Prop :=
  csr n fo head /\ length w = length head /\ length arcs = length head /\
  forall e t h x, arcs !! e = Some (t, h, x) -> out_arc fo t e /\ head !! e = Some h /\ w !! e = Some x.
(** Sorted by tail and then by head, arcs with the same ends keep their order. *)
Definition arcs_sorted (arcs arcs' : list (nat * nat * N)) : Prop :=
  exists r, lex_sort_perm ((fun a => fst (fst a)) <$> arcs) ((fun a => snd (fst a)) <$> arcs) r /\ permuted_by r arcs arcs'.

(** The DIMACS format: empty lines and lines that start with c (99) are comments, the first other line is "p sp nodes arcs" and all others
    are "a tail head weight", where nodes are counted from 1. *)
Definition comment_line (l : list N) : Prop := l = [] \/ exists l', l = 99%N :: l'.
Definition header_line (n m : nat) (l : list N) : Prop :=
  exists b1 b2 b3 b4 dn dm, l = [112%N] ++ b1 ++ [115%N; 112%N] ++ b2 ++ dn ++ b3 ++ dm ++ b4 /\ gap b1 /\ gap b2 /\ gap b3 /\ blanks b4 /\
    numeral dn (N.of_nat n) /\ numeral dm (N.of_nat m).
Definition arc_line (a : nat * nat * N) (l : list N) : Prop :=
  exists b1 b2 b3 b4 dt dh dw, l = [97%N] ++ b1 ++ dt ++ b2 ++ dh ++ b3 ++ dw ++ b4 /\ gap b1 /\ gap b2 /\ gap b3 /\ blanks b4 /\
    numeral dt (N.of_nat (S (fst (fst a)))) /\ numeral dh (N.of_nat (S (snd (fst a)))) /\ numeral dw (snd a).
Inductive arc_lines : list (list N) -> list (nat * nat * N) -> Prop :=
  | al_nil : arc_lines [] []
  | al_comment l ls arcs : comment_line l -> arc_lines ls arcs -> arc_lines (l :: ls) arcs
  | al_arc a l ls arcs : arc_line a l -> arc_lines ls arcs -> arc_lines (l :: ls) (a :: arcs).
Definition dimacs_file (n : nat) (arcs : list (nat * nat * N)) (file : list N) : Prop :=
  exists comments header ls, lines_of (comments ++ header :: ls) file /\ Forall comment_line comments /\ header_line n (length arcs) header /\ arc_lines ls arcs.
(** The numbers fit the program: every arc is within the graph. *)
Definition arcs_fit (n : nat) (arcs : list (nat * nat * N)) : Prop :=
  fits32 (S n) /\ fits32 (length arcs) /\ Forall (fun a => fst (fst a) < n /\ snd (fst a) < n /\ (snd a < 2 ^ 32)%N) arcs.

(** The graph [tail'], [head'] with weights [w'] arises from [tail], [head] and [w] by giving the nodes the names in [pi] and
    reordering the arcs: arc [e] of the new graph was arc [r !! e]. *)
Definition renamed_arcs (pi r tail head tail' head' : list nat) : Prop :=
  length tail' = length r /\ length head' = length r /\
  forall e e0 t h, r !! e = Some e0 -> tail !! e0 = Some t -> head !! e0 = Some h ->
    exists t' h', pi !! t = Some t' /\ pi !! h = Some h' /\ tail' !! e = Some t' /\ head' !! e = Some h'.
