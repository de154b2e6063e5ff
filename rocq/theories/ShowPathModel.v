(** Model of src/show_path.cpp ([s:]) and src/examine_ch.cpp ([x:]).

    The result is what the program prints to the standard output, and whether an exception ended it; [None] is undefined behaviour.
    Files are lists of bytes, all of them exist. The type float is arbitrary: [value] reads the four bytes of a number, and [show] is what
    [cout << setprecision(10)] prints. Numbers of the standard input are separated as [>>] does it, see TextModel. *)
From Verif Require Import Base ProtobufModel VectorIoModel ChFileModel ChBuildModel ChQueryModel DistanceToolModel TextModel.
From Coq Require String. Import String.StringSyntax.
Local Open Scope string_scope.

(** s:46-71: a line with tabs at its front *)
Definition line_of (tabs : nat) (l : list N) : list N := (replicate tabs 9 ++ l ++ [10])%N%list.

Section show.
Context {F : Type} (value : list N -> F) (show : F -> list N).

(** s:52, 56, 64: longitude, latitude and height of a node *)
Definition show_node (latitude longitude : list F) (x : nat) : option (list N) :=
  lon ← longitude !! x; lat ← latitude !! x;
  Some (show lon ++ text "," ++ show lat ++ text ",0")%list.
(** s:46-62 *)
Definition show_head (source target : list N) (distance : N) : list N :=
  (line_of 0 (text "<?xml version=""1.0"" encoding=""UTF-8""?>") ++ line_of 0 (text "<kml xmlns=""http://www.opengis.net/kml/2.2"">") ++
   line_of 0 (text "<Document>") ++
   line_of 1 (text "<Placemark>") ++ line_of 2 (text "<name>Source</name>") ++
   line_of 2 (text "<Point><coordinates>" ++ source ++ text "</coordinates></Point>") ++ line_of 1 (text "</Placemark>") ++
   line_of 1 (text "<Placemark>") ++ line_of 2 (text "<name>Target</name>") ++
   line_of 2 (text "<Point><coordinates>" ++ target ++ text "</coordinates></Point>") ++ line_of 1 (text "</Placemark>") ++
   line_of 1 (text "<Placemark>") ++ line_of 2 (text "<name>Path of length " ++ print_unsigned distance ++ text " meter</name>") ++
   line_of 2 (text "<LineString>") ++ line_of 3 (text "<coordinates>"))%list.
(** s:65-71 *)
Definition show_end : list N :=
  (line_of 3 (text "</coordinates>") ++ line_of 2 (text "</LineString>") ++ line_of 1 (text "</Placemark>") ++
   line_of 0 (text "</Document>") ++ line_of 0 (text "</kml>"))%list.
(** s:63-64 *)
Fixpoint show_nodes (latitude longitude : list F) (path : list nat) (out : list N) : option (list N) :=
  match path with
  | [] => Some out
  | x :: path => a ← show_node latitude longitude x; show_nodes latitude longitude path (out ++ line_of 4 a)%list
  end.
(** s:44-71: what is printed for a query, and the query object behind it *)
Definition show_query (latitude longitude : list F) (q : cquery) (s t : nat) (out : list N) : option (list N * cquery) :=
  '(distance, q) ← ch_query q s t;
  a ← show_node latitude longitude s; b ← show_node latitude longitude t;
  path ← cq_node_path q;
  out ← show_nodes latitude longitude path (out ++ show_head a b distance)%list;
  Some ((out ++ show_end)%list, q).
(** s:37-73. Each query takes at least a character, [fuel] is the number of characters and one. *)
Fixpoint show_loop (fuel : nat) (node_count : N) (latitude longitude : list F) (q : cquery) (input out : list N) : option (list N * bool) :=
  match fuel with
  | O => None
  | S fuel =>
      match ('(s, input) ← read_unsigned 32 input; '(t, input) ← read_unsigned 32 input; Some (s, t, input)) with
      | None => Some (out, false)
      | Some (s, t, input) =>
          if (node_count <? s)%N then Some (out, true) else
          if (node_count <? t)%N then Some (out, true) else
          '(out, q) ← show_query latitude longitude q (N.to_nat s) (N.to_nat t) out;
          show_loop fuel node_count latitude longitude q input out
      end
  end.
(** s:17-76 *)
Definition show_path (ch_file latitude_file longitude_file input : list N) : option (list N * bool) :=
  match andthen (load_ch ch_file) (fun o =>
        andthen (Some (load_vector 4 value latitude_file)) (fun latitude =>
        andthen (Some (load_vector 4 value longitude_file)) (fun longitude => Some (Ret (o, latitude, longitude))))) with
  | None => None
  | Some Throw => Some ([], true)
  | Some (Ret (o, latitude, longitude)) =>
      c ← ch_of_object o;
      show_loop (length input + 1) (N.of_nat (length (o_rank o))) latitude longitude (new_cquery c) input []
  end.
End show.

(** x:40-43 *)
Definition examine_ch (ch_file : list N) : option (list N * bool) :=
  match load_ch ch_file with
  | None => None
  | Some Throw => Some ([], true)
  | Some (Ret o) =>
      Some ((line_of 0 (text "node_count : " ++ print_unsigned (N.of_nat (length (o_rank o)))) ++
             line_of 0 (text "forward_ch_arc_count : " ++ print_unsigned (N.of_nat (length (f_head (o_fwd o))))) ++
             line_of 0 (text "backward_ch_arc_count : " ++ print_unsigned (N.of_nat (length (f_head (o_bwd o))))))%list, false)
  end.
