(** Files with the positions of nodes, as text. *)
From Verif Require Import Base TextSpec VectorToolSpec GraphToolSpec.

(** The text [l] consists of space, the word [w] and [rest]. *)
Definition word_text (w l rest : list N) : Prop :=
  exists b, l = b ++ w ++ rest /\ Forall white b /\ w <> [] /\ Forall (fun c => ~ white c) w /\ match rest with [] => True | c :: _ => white c end.
(** The text [l] consists of space, the number [x] and [rest]. *)
Definition numeral_text (x : Z) (l rest : list N) : Prop :=
  exists b s, l = b ++ s ++ rest /\ Forall white b /\ signed_numeral s x /\ match rest with [] => True | c :: _ => (~ 48 <= c <= 57)%N end.

(** "p aux sp co nodes". In this line and in the number of a node, a negative number [-x] stands for [2^32 - x]. *)
Definition size_line (n : nat) (l : list N) : Prop :=
  exists l1 l2 l3 l4 l5 x, word_text [112%N] l l1 /\ word_text [97; 117; 120]%N l1 l2 /\ word_text [115; 112]%N l2 l3 /\ word_text [99; 111]%N l3 l4 /\ numeral_text x l4 l5 /\ Forall white l5 /\
    (- 2 ^ 32 < x < 2 ^ 32)%Z /\ (x mod 2 ^ 32 = Z.of_nat n)%Z.
(** "v node longitude latitude", where nodes are counted from 1 and the position is given in millionths of degrees. *)
Definition position_line (p : nat * Z * Z) (l : list N) : Prop :=
  let '(v, lon, lat) := p in
  exists l1 l2 l3 l4 x, word_text [118%N] l l1 /\ numeral_text x l1 l2 /\ numeral_text lon l2 l3 /\ numeral_text lat l3 l4 /\ Forall white l4 /\
    (- 2 ^ 32 < x < 2 ^ 32)%Z /\ ((x - 1) mod 2 ^ 32 = Z.of_nat v)%Z /\ (- 2 ^ 63 <= lon < 2 ^ 63)%Z /\ (- 2 ^ 63 <= lat < 2 ^ 63)%Z.
(** Comments as in GraphToolSpec *)
Inductive position_lines : list (list N) -> list (nat * Z * Z) -> Prop :=
  | pl_nil : position_lines [] []
  | pl_comment l ls ps : comment_line l -> position_lines ls ps -> position_lines (l :: ls) ps
  | pl_position p l ls ps : ~ comment_line l -> position_line p l -> position_lines ls ps -> position_lines (l :: ls) (p :: ps).
Definition positions_text (n : nat) (ps : list (nat * Z * Z)) (file : list N) : Prop :=
  exists comments header ls, lines_of (comments ++ header :: ls) file /\ Forall comment_line comments /\ ~ comment_line header /\ size_line n header /\ position_lines ls ps.
(** Every node has one position, and the arrays contain these positions. *)
Definition positions (n : nat) (ps : list (nat * Z * Z)) (lat lon : list Z) : Prop :=
  ps.*1.*1 ≡ₚ seq 0 n /\ length lat = n /\ length lon = n /\ forall v x y, (v, x, y) ∈ ps -> lon !! v = Some x /\ lat !! v = Some y.
