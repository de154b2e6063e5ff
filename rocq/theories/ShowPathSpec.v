(** Texts with queries, and the documents that show routes on a map. *)
From Verif Require Import Base TextSpec CoordToolSpec GraphSpec DistanceToolSpec WalkSpec.
From Verif Require TextModel.
From Coq Require String. Import String.StringSyntax.

(** The text [l] consists of space, a number that stands for [v], and [rest]; [-x] stands for [2^32 - x]. *)
Definition word_number (v : N) (l rest : list N) : Prop :=
  exists x, numeral_text x l rest /\ (- 2 ^ 32 < x < 2 ^ 32)%Z /\ (x mod 2 ^ 32 = Z.of_N v)%Z.
(** The text [l] starts with pairs of numbers. *)
Inductive queries_text : list (N * N) -> list N -> list N -> Prop :=
  | qt_nil rest : queries_text [] rest rest
  | qt_cons s t qs l l1 l2 rest : word_number s l l1 -> word_number t l1 l2 -> queries_text qs l2 rest -> queries_text ((s, t) :: qs) l rest.
(** The queries of an input are all pairs that it starts with. *)
Definition queries_of (input : list N) (qs : list (N * N)) : Prop :=
  exists rest, queries_text qs input rest /\ ~ exists s t l1 l2, word_number s rest l1 /\ word_number t l1 l2.

(** A position in a document, and a file with lines that are indented by tabs (character 9). *)
Definition position {F} (show : F -> list N) (lat lon : F) : list N := show lon ++ [44%N] ++ show lat ++ [44; 48]%N.
Definition indented (lines : list (nat * list N)) : list N := concat ((fun '(k, l) => replicate k 9%N ++ l ++ [10%N]) <$> lines).
Definition txt (s : String.string) : list N := TextModel.text s.
Arguments txt s%string_scope.
Definition placemark (inner : list (nat * list N)) : list (nat * list N) := (1, txt "<Placemark>") :: inner ++ [(1, txt "</Placemark>")].
Definition point (name : list N) (p : list N) : list (nat * list N) :=
  placemark [(2, txt "<name>" ++ name ++ txt "</name>"); (2, txt "<Point><coordinates>" ++ p ++ txt "</coordinates></Point>")].
(** A document in the format KML: a source, a target, and a line along points. *)
Definition kml (source target distance : list N) (points : list (list N)) : list (nat * list N) :=
  [(0, txt "<?xml version=""1.0"" encoding=""UTF-8""?>"); (0, txt "<kml xmlns=""http://www.opengis.net/kml/2.2"">"); (0, txt "<Document>")] ++
  point (txt "Source") source ++ point (txt "Target") target ++
  placemark ([(2, txt "<name>Path of length " ++ distance ++ txt " meter</name>"); (2, txt "<LineString>"); (3, txt "<coordinates>")] ++
    ((fun p => (4, p)) <$> points) ++ [(3, txt "</coordinates>"); (2, txt "</LineString>")]) ++
  [(0, txt "</Document>"); (0, txt "</kml>")].

(** The document [doc] shows a shortest route from [s] to [t]. Without a route (or with one that is too long) the line is empty and the distance is inf_weight. *)
Definition shows {F} (show : F -> list N) (latitude longitude : list F) (tail head : list nat) (w : list N) (s t : nat) (doc : list N) : Prop :=
  exists d digits nodes points a b,
    is_distance tail head w s t d /\ numeral digits d /\
    (d = inf_weight -> nodes = []) /\
    (d <> inf_weight -> exists p us, awalk tail head s p t /\ total w p = d /\ mapM (fun e => tail !! e) p = Some us /\ nodes = us ++ [t]) /\
    Forall2 (fun x pos => exists lat lon, latitude !! x = Some lat /\ longitude !! x = Some lon /\ pos = position show lat lon) (s :: t :: nodes) (a :: b :: points) /\
    doc = indented (kml a b digits points).
