(** Model of the constructor CustomizableContractionHierarchy
    (src/customizable_contraction_hierarchy.cpp:26-57 and 196-655). Line numbers without a
    file name refer to that file. Not modelled: timers, log texts, the assertion loops
    under #ifndef NDEBUG and the exception for 2^32 and more arcs (numbers are unbounded).
    [None] is undefined behaviour, a thrown exception or a non-terminating loop. *)
From Verif Require Import Base PermutationModel SortModel GraphUtilModel CchModel.

(** std::unique on a sorted vector. *)
Fixpoint unique (l : list nat) : list nat :=
  match l with
  | x :: ((y :: _) as l') => if decide (x = y) then unique l' else x :: unique l'
  | _ => l
  end.

(** :27-32 *)
Definition collect_upper (n : nat) (tail head : list nat) : option (list (list nat)) :=
  for_range 0 (length tail) (fun i nodes =>
    t ← tail !! i; h ← head !! i;
    if decide (t < h) then l ← nodes !! t; wr nodes t (l ++ [h]) else Some nodes) (replicate n []).
(** :34-38; std::sort on numbers has one result, [merge_sort]. *)
Definition sort_upper (n : nat) (nodes : list (list nat)) : option (list (list nat)) :=
  for_range 0 n (fun x nodes => l ← nodes !! x; wr nodes x (unique (merge_sort (≤) l))) nodes.
(** :42-51, one node; std::merge on numbers has one result, [list_merge]. *)
Definition eliminate_node (x : nat) (st : list (list nat) * list (nat * nat)) : option (list (list nat) * list (nat * nat)) :=
  let '(nodes, arcs) := st in
  l ← nodes !! x;
  match l with
  | [] => Some (nodes, arcs)
  | y :: r =>
      ly ← nodes !! y;
      nodes ← wr nodes y (unique (list_merge (≤) r ly));
      l ← nodes !! x;
      Some (nodes, arcs ++ (pair x <$> l))
  end.
(** :26-57, without the returned degree, which is only logged; the arcs are those passed
    to on_new_arc (265-273). *)
Definition compute_chordal_supergraph (n : nat) (tail head : list nat) : option (list nat * list nat) :=
  nodes ← collect_upper n tail head;
  nodes ← sort_upper n nodes;
  '(_, arcs) ← for_range 0 n eliminate_node (nodes, []);
  Some (map fst arcs, map snd arcs).

(** :255-258: is arc [i] neither a copy of its predecessor nor a loop? *)
Definition sym_keep (tail head : list nat) (i : nat) : option bool :=
  t ← tail !! i; h ← head !! i;
  match i with
  | O => Some (bool_decide (t <> h))
  | S j => t' ← tail !! j; h' ← head !! j; Some (bool_decide ((h <> h' \/ t <> t') /\ t <> h))
  end.
(** :242-261 *)
Definition symmetric_graph (asserts : bool) (n : nat) (tail head : list nat) : option (list nat * list nat) :=
  let st := tail ++ head in let sh := head ++ tail in
  '(p, st) ← compute_inverse_sort_permutation_first_by_tail_then_by_head_and_apply_sort_to_tail asserts n st sh;
  sh ← apply_inverse_permutation p sh;
  bits ← mapM (sym_keep st sh) (seq 0 (length st));
  st ← keep_element_of_vector_if bits st;
  sh ← keep_element_of_vector_if bits sh;
  Some (st, sh).
(** :240-289: tails, heads and index of the upward arcs *)
Definition build_up (asserts : bool) (n : nat) (tail head : list nat) : option (list nat * list nat * list nat) :=
  '(st, sh) ← symmetric_graph asserts n tail head;
  '(ut, uh) ← compute_chordal_supergraph n st sh;
  '(p, ut) ← compute_inverse_sort_permutation_first_by_tail_then_by_head_and_apply_sort_to_tail asserts n ut uh;
  uh ← apply_inverse_permutation p uh;
  fo ← invert_vector ut n;
  Some (fo, ut, uh).

(** :317-320 and 345-348: advance to the arc (t,h). *)
Fixpoint scan_to (ut uh : list nat) (t h fuel p : nat) : option nat :=
  a ← ut !! p; b ← uh !! p;
  if decide (t = a /\ h = b) then Some p else
  match fuel with O => None | S fuel => scan_to ut uh t h fuel (S p) end.
(** :313-330 ([first]) and 341-353 *)
Definition map_pass (first : bool) (it ih ids ut uh : list nat) (st : list (option nat) * list bool) : option (list (option nat) * list bool) :=
  '(_, mp, up) ← for_range 0 (length it) (fun i '(p, mp, up) =>
      t ← it !! i; h ← ih !! i;
      if decide (t < h) then
        p ← scan_to ut uh t h (length ut) p;
        id ← ids !! i; mp ← wr mp id (Some p);
        up ← (if first then wr up id true else Some up);
        Some (p, mp, up)
      else if first && bool_decide (t = h) then
        id ← ids !! i; mp ← wr mp id None; Some (p, mp, up)
      else Some (p, mp, up)) (0, fst st, snd st);
  Some (mp, up).
(** :306-355: which CCH arc, and which direction, each input arc belongs to. [it], [ih],
    [ids] are the sorted input arcs and their ids. *)
Definition map_input (asserts : bool) (n : nat) (it ih ids ut uh : list nat) : option (list (option nat) * list bool) :=
  let m := length it in
  match uh with
  | [] => Some (replicate m None, replicate m false)
  | _ =>
      '(mp, up) ← map_pass true it ih ids ut uh (replicate m (Some 0), replicate m false);
      '(p, it') ← compute_inverse_sort_permutation_first_by_tail_then_by_head_and_apply_sort_to_tail asserts n ih it;
      ih' ← apply_inverse_permutation p it;
      ids' ← apply_inverse_permutation p ids;
      map_pass false it' ih' ids' ut uh (mp, up)
  end.

(** :369-377 *)
Definition elimination_tree (n : nat) (fo uh : list nat) : option (list (option nat)) :=
  mapM (fun x => lo ← fo !! x; hi ← fo !! S x; if decide (lo <> hi) then h ← uh !! lo; Some (Some h) else Some None) (seq 0 n).

(** :467-477: flags set by the input arcs *)
Definition input_flags (count : nat) (mp : list (option nat)) (up : list bool) : option (list bool * list bool) :=
  for_range 0 (length mp) (fun e '(f, g) =>
    o ← mp !! e;
    match o with
    | None => Some (f, g)
    | Some a => b ← up !! e; if (b : bool) then f ← wr f a true; Some (f, g) else g ← wr g a true; Some (f, g)
    end) (replicate count false, replicate count false).
(** :492-500, one triangle *)
Definition flag_triangle (bottom mid top : nat) (st : list bool * list bool) : option (list bool * list bool) :=
  let '(f, g) := st in
  ft ← f !! top;
  f' ← (if (ft : bool) then Some f else
        gb ← g !! bottom; fm ← f !! mid; if gb && fm then wr f top true else Some f);
  gt ← g !! top;
  g' ← (if (gt : bool) then Some g else
        fb ← f' !! bottom; gm ← g !! mid; if fb && gm then wr g top true else Some g);
  Some (f', g').
(** :482-507 *)
Definition triangle_flags (c : cch) (count : nat) (st : list bool * list bool) : option (list bool * list bool) :=
  for_range 0 count (fun a st =>
    '(st, _) ← forall_upper_triangles_of_arc c a
      (fun bottom mid top _ _ _ st => st ← flag_triangle bottom mid top st; Some (st, true)) st;
    Some st) st.
(** Only the upward graph, which is all that the enumeration of upper triangles reads. *)
Definition up_only (fo ut uh : list nat) : cch :=
  mkCch [] [] [] fo uh ut [] [] [] [] [] [] [] [] [] [] [] [] [].
(** :463-519: the arcs that can have a finite weight, and the new index and mapping *)
Definition filter_up (n : nat) (fo ut uh : list nat) (mp : list (option nat)) (up : list bool)
    : option (list nat * list nat * list nat * list (option nat)) :=
  let count := length ut in
  st ← input_flags count mp up;
  '(f, g) ← triangle_flags (up_only fo ut uh) count st;
  let keep := zip_with orb f g in
  uh ← keep_element_of_vector_if keep uh;
  ut ← keep_element_of_vector_if keep ut;
  fo ← invert_vector ut n;
  mp ← mapM (fun o => match o with None => Some None | Some a => i ← local_id keep a; Some (Some i) end) mp;
  Some (fo, ut, uh, mp).

(** :537-544: index, heads and upward arcs of the downward graph *)
Definition build_down (asserts : bool) (n : nat) (ut uh : list nat) : option (list nat * list nat * list nat) :=
  '(p, dt) ← compute_sort_permutation_first_by_tail_then_by_head_and_apply_sort_to_tail asserts n uh ut;
  dh ← apply_permutation p ut;
  fo ← invert_vector dt n;
  Some (fo, dh, p).

(** :561-566 *)
Definition set_mapped (count : nat) (mp : list (option nat)) : option (list bool) :=
  for_each mp (fun o bits => match o with None => Some bits | Some a => wr bits a true end) (replicate count false).
(** The state of lines 579-606: forward and backward first input arcs, extra flags, CCH
    arcs and input arcs of the extra arcs in both directions. *)
Record inputs := mkInputs { i_fwd : list (option nat); i_bwd : list (option nat); i_extra : list bool;
  i_xf : list nat; i_ef : list nat; i_xb : list nat; i_eb : list nat }.
(** :579-606, one input arc *)
Definition record_input (has : list bool) (mp : list (option nat)) (up : list bool) (e : nat) (s : inputs) : option inputs :=
  o ← mp !! e;
  match o with
  | None => Some s
  | Some a =>
      i ← local_id has a;
      b ← up !! e;
      if (b : bool) then
        x ← i_fwd s !! i;
        match x with
        | None => f ← wr (i_fwd s) i (Some e); Some (mkInputs f (i_bwd s) (i_extra s) (i_xf s) (i_ef s) (i_xb s) (i_eb s))
        | Some _ => h ← wr (i_extra s) a true;
            Some (mkInputs (i_fwd s) (i_bwd s) h (i_xf s ++ [a]) (i_ef s ++ [e]) (i_xb s) (i_eb s))
        end
      else
        x ← i_bwd s !! i;
        match x with
        | None => f ← wr (i_bwd s) i (Some e); Some (mkInputs (i_fwd s) f (i_extra s) (i_xf s) (i_ef s) (i_xb s) (i_eb s))
        | Some _ => h ← wr (i_extra s) a true;
            Some (mkInputs (i_fwd s) (i_bwd s) h (i_xf s) (i_ef s) (i_xb s ++ [a]) (i_eb s ++ [e]))
        end
  end.
(** :610-613 and 615-628 resp. 631-644, one direction: group the extra arcs by CCH arc. *)
Definition group_extra (extra : list bool) (xs es : list nat) : option (list nat * list nat) :=
  let count := length (filter Is_true extra) in
  xs ← mapM (local_id extra) xs;
  p ← compute_inverse_stable_sort_permutation_using_key (fun x => x) xs count;
  xs ← apply_inverse_permutation p xs;
  first ← invert_vector xs count;
  es ← apply_inverse_permutation p es;
  Some (first, es).
(** :536-646: downward graph and input arcs of the CCH arcs *)
Definition assemble (asserts : bool) (order rank : list nat) (parent : list (option nat)) (fo ut uh : list nat)
    (mp : list (option nat)) (up : list bool) : option cch :=
  let count := length uh in
  '(dfo, dh, d2u) ← build_down asserts (length order) ut uh;
  has ← set_mapped count mp;
  let k := length (filter Is_true has) in
  s ← for_range 0 (length mp) (record_input has mp up)
        (mkInputs (replicate k None) (replicate k None) (replicate count false) [] [] [] []);
  '(ff, ef) ← group_extra (i_extra s) (i_xf s) (i_ef s);
  '(fb, eb) ← group_extra (i_extra s) (i_xb s) (i_eb s);
  Some (mkCch order rank parent fo uh ut dfo dh d2u mp up has (i_fwd s) (i_bwd s) (i_extra s) ff fb ef eb).

(** :196-655. [log]: a log function was passed. Without filtering the log function is
    called unconditionally (452-453): std::bad_function_call if there is none. With a
    log function the averages divide by the node count (445, 447). *)
Definition build_cch (asserts log filter_arcs : bool) (order tail head : list nat) : option cch :=
  let n := length order in
  rank ← invert_permutation order;
  it ← apply_permutation_to_elements_of rank tail;
  ih ← apply_permutation_to_elements_of rank head;
  '(ids, it) ← compute_sort_permutation_first_by_tail_then_by_head_and_apply_sort_to_tail asserts n it ih;
  ih ← apply_permutation ids ih;
  '(fo, ut, uh) ← build_up asserts n it ih;
  '(mp, up) ← map_input asserts n it ih ids ut uh;
  parent ← elimination_tree n fo uh;
  _ ← chk (negb log || bool_decide (n <> 0));
  _ ← chk (filter_arcs || log);
  '(fo, ut, uh, mp) ← (if filter_arcs then filter_up n fo ut uh mp up else Some (fo, ut, uh, mp));
  assemble asserts order rank parent fo ut uh mp up.
