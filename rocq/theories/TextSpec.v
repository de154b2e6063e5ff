(** Text: lines and numbers. *)
From Verif Require Import Base.

(** [ds] is a decimal representation of [x], possibly with leading zeros; 48 is the character 0. *)
Inductive numeral : list N -> N -> Prop :=
  | numeral_digit d : (d < 10)%N -> numeral [(48 + d)%N] d
  | numeral_more ds x d : numeral ds x -> (d < 10)%N -> numeral (ds ++ [(48 + d)%N]) (10 * x + d)%N.
(** Spaces and tabs. *)
Definition blanks (l : list N) : Prop := Forall (fun c => c = 32 \/ c = 9)%N l.
Definition gap (l : list N) : Prop := l <> [] /\ blanks l.
(** The lines of a file end with a newline, that of the last line may be missing. *)
Definition lines_of (lines : list (list N)) (file : list N) : Prop :=
  Forall (fun l => 10%N ∉ l) lines /\
  (file = concat ((fun l => l ++ [10%N]) <$> lines) \/
   exists init last, lines = init ++ [last] /\ last <> [] /\ file = concat ((fun l => l ++ [10%N]) <$> init) ++ last).
