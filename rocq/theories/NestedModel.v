(** src/nested_dissection.cpp: fragments, components, separators and the decomposition. Line numbers refer to that file. Log messages
    and the measuring of time are left out. Bit vectors are lists of bits. *)
From Verif Require Import Base PermutationModel GraphUtilModel FlowModel.

(** :70-76 and 652-658 (the same lines twice): arcs sorted by tail and head. *)
Definition sort_arcs (asserts : bool) (n : nat) (tail head back : list nat) : option (list nat * list nat * list nat * list nat) :=
  '(p, tail) ← compute_inverse_sort_permutation_first_by_tail_then_by_head_and_apply_sort_to_tail asserts n tail head;
  head ← apply_inverse_permutation p head;
  back ← apply_inverse_permutation p back;
  back ← inplace_apply_permutation_to_elements_of p back;
  first_out ← invert_vector tail n;
  Some (tail, head, back, first_out).

(** :46-49 *)
Definition count_non_loops (tail head : list nat) : option nat :=
  for_range 0 (length head) (fun i c => t ← tail !! i; h ← head !! i; Some (if t =? h then c else c + 1)) 0.
(** :55-67; the state is (tail, head, back_arc, j) *)
Definition fill_arcs (tail head : list nat) (k : nat) : option (list nat * list nat * list nat * nat) :=
  for_range 0 (length head) (fun i '(ft, fh, fb, j) =>
    t ← tail !! i; h ← head !! i;
    if t =? h then Some (ft, fh, fb, j) else
    ft ← wr ft j t; ft ← wr ft (j + k) h;
    fh ← wr fh j h; fh ← wr fh (j + k) t;
    fb ← wr fb j (j + k); fb ← wr fb (j + k) j;
    Some (ft, fh, fb, j + 1))
    (replicate (2 * k) 0, replicate (2 * k) 0, replicate (2 * k) 0, 0).
(** :41-83 *)
Definition make_graph_fragment (asserts : bool) (n : nat) (tail head : list nat) : option fragment :=
  k ← count_non_loops tail head;
  '(ft, fh, fb, _) ← fill_arcs tail head k;
  '(ft, fh, fb, fo) ← sort_arcs asserts n ft fh fb;
  gl ← identity_permutation n;
  Some (mkFragment gl fo ft fh fb).

Section Components.
  Context (asserts : bool).

  (** :633-639; the state: stack, its end, component *)
  Definition comp_arc (g : fragment) (c xy : nat) (s : list nat * nat * list (option nat)) : option (list nat * nat * list (option nat)) :=
    let '(stack, stack_end, comp) := s in
    y ← fr_head g !! xy;
    cy ← comp !! y;
    match cy with
    | Some _ => Some s
    | None => stack ← wr stack stack_end y; comp ← wr comp y (Some c); Some (stack, stack_end + 1, comp)
    end.
  (** :630-640; [fuel] need not exceed the number of nodes, as a node enters the stack once. *)
  Fixpoint comp_loop (g : fragment) (c fuel : nat) (s : list nat * nat * list (option nat)) (inv : list nat) (pos : nat) : option (list nat * list (option nat) * list nat * nat) :=
    let '(stack, stack_end, comp) := s in
    if stack_end =? 0 then Some (stack, comp, inv, pos) else
    match fuel with
    | 0 => None
    | S fuel =>
      x ← stack !! (stack_end - 1);
      inv ← wr inv x pos;
      lo ← fr_first_out g !! x; hi ← fr_first_out g !! (x + 1);
      s ← for_range lo hi (comp_arc g c) (stack, stack_end - 1, comp);
      comp_loop g c fuel s inv (pos + 1)
    end.
  (** :618-644; the state: stack, component, inv_pseudo_preorder, pos, component_count *)
  Definition find_components (g : fragment) : option (list (option nat) * list nat) :=
    '(_, comp, inv, _, _) ← for_range 0 (fr_nodes g) (fun r '(stack, comp, inv, pos, c) =>
      cr ← comp !! r;
      match cr with
      | Some _ => Some (stack, comp, inv, pos, c)
      | None =>
        comp ← wr comp r (Some c);
        stack ← wr stack 0 r;
        '(stack, comp, inv, pos) ← comp_loop g c (fr_nodes g) (stack, 1, comp) inv pos;
        Some (stack, comp, inv, pos, c + 1)
      end)
      (replicate (fr_nodes g) 0, replicate (fr_nodes g) None, replicate (fr_nodes g) 0, 0, 0);
    Some (comp, inv).

  (** The elements [b] to [e] of a vector, less [x] (:672-674 and others). A difference below zero would wrap around in the
      code; here it is None. *)
  Definition slice (v : list nat) (b e : nat) : option (list nat) := chk ((b <=? e) && (e <=? length v));; Some (take (e - b) (drop b v)).
  Definition minus_all (x : nat) (v : list nat) : option (list nat) := chk (forallb (fun y => x <=? y) v);; Some ((fun y => y - x) <$> v).
  (** [assert(max_element_of(v) < n)] for a vector that is not empty (:676-677 and others). *)
  Definition all_below (n : nat) (v : list nat) : bool := forallb (fun x => x <? n) v.

  (** :664-700 *)
  Definition generate_part (g : fragment) (nb ne ab ae : nat) : option fragment :=
    tail ← slice (fr_tail g) ab ae; tail ← minus_all nb tail;
    chk (implb asserts (all_below (ne - nb) tail));;
    head ← slice (fr_head g) ab ae; head ← minus_all nb head;
    chk (implb asserts (all_below (ne - nb) head));;
    back ← slice (fr_back g) ab ae; back ← minus_all ab back;
    chk (implb asserts (all_below (ae - ab) back));;
    gl ← slice (fr_global g) nb ne;
    fo ← invert_vector tail (ne - nb);
    Some (mkFragment gl fo tail head back).

  (** :710-713; [n] is the number of arcs that are left. *)
  Fixpoint skip_arcs (g : fragment) (comp : list (option nat)) (cur : option nat) (n a : nat) : option nat :=
    match n with
    | 0 => Some a
    | S n =>
      t ← fr_tail g !! a; ct ← comp !! t;
      if decide (ct = cur) then
        h ← fr_head g !! a; ch ← comp !! h;
        chk (implb asserts (bool_decide (ct = ch)));;
        skip_arcs g comp cur n (a + 1)
      else Some a
    end.
  (** :708-720; the state: node begin, arc begin, arc end, current component, part list *)
  Definition part_step (g : fragment) (comp : list (option nat)) (i : nat) (s : nat * nat * nat * option nat * list fragment) : option (nat * nat * nat * option nat * list fragment) :=
    let '(nb, ab, ae, cur, parts) := s in
    ci ← comp !! i;
    if decide (ci = cur) then Some s else
    ae ← skip_arcs g comp cur (fr_arcs g - ae) ae;
    part ← generate_part g nb i ab ae;
    Some (i, ae, ae, ci, parts ++ [part]).
  (** :702-723. The loop over component_node_end starts with 1 even if there is no node; then the last part is out of bounds. *)
  Definition generate_parts (g : fragment) (comp : list (option nat)) : option (list fragment) :=
    let n := fr_nodes g in
    '(nb, ab, _, _, parts) ← for_range 1 n (part_step g comp) (0, 0, 0, Some 0, []);
    part ← generate_part g nb (Nat.max 1 n) ab (fr_arcs g);
    Some (parts ++ [part]).

  (** :646-658 *)
  Definition relabel (g : fragment) (inv : list nat) (comp : list (option nat)) : option (fragment * list (option nat)) :=
    tail ← inplace_apply_permutation_to_elements_of inv (fr_tail g);
    head ← inplace_apply_permutation_to_elements_of inv (fr_head g);
    gl ← apply_inverse_permutation inv (fr_global g);
    comp ← apply_inverse_permutation inv comp;
    '(tail, head, back, fo) ← sort_arcs asserts (fr_nodes g) tail head (fr_back g);
    Some (mkFragment gl fo tail head back, comp).

  (** :612-724 *)
  Definition connected_components (g : fragment) : option (list fragment) :=
    '(comp, inv) ← find_components g;
    '(g, comp) ← relabel g inv comp;
    generate_parts g comp.

  (** :726-738 *)
  Definition derive_separator (g : fragment) (cut : list bool) : option (list bool) :=
    let small_side := count_occ Bool.bool_dec cut true <=? fr_nodes g / 2 in
    for_range 0 (fr_arcs g) (fun xy sep =>
      x ← fr_tail g !! xy; y ← fr_head g !! xy;
      cx ← cut !! x; cy ← cut !! y;
      if Bool.eqb cx small_side && negb (Bool.eqb cy small_side) then wr sep y true else Some sep)
      (replicate (fr_nodes g) false).

  (** nested_dissection.h:84-94 *)
  Record tnode := mkNode { t_left : nat; t_right : nat; t_first : nat; t_last : nat }.
  Record decomp := mkDecomp { d_tree : list tnode; d_order : list nat }.

  (** LocalIDMapper(f).to_local(x), by what C06 says about it: the number of bits below [x]. *)
  Definition to_local_id (f : list bool) (x : nat) : option nat :=
    b ← f !! x; chk b;; Some (count_occ Bool.bool_dec (take x f) true).

  (** :788-805: the arcs at the separator are removed. *)
  Definition remove_separator (g : fragment) (sep : list bool) : option fragment :=
    f ← for_range 0 (fr_arcs g) (fun a f =>
      t ← fr_tail g !! a; h ← fr_head g !! a; st ← sep !! t; sh ← sep !! h; Some (f ++ [negb st && negb sh])) [];
    tail ← keep_element_of_vector_if f (fr_tail g);
    head ← keep_element_of_vector_if f (fr_head g);
    back ← keep_element_of_vector_if f (fr_back g);
    back ← for_range 0 (length back) (fun i back => x ← back !! i; l ← to_local_id f x; wr back i l) back;
    fo ← invert_vector tail (fr_nodes g);
    Some (mkFragment (fr_global g) fo tail head back).

  (** :820-827 *)
  Definition shift_node (size order_begin : nat) (t : tnode) : tnode :=
    mkNode (if t_left t =? 0 then 0 else t_left t + size) (if t_right t =? 0 then 0 else t_right t + size)
      (t_first t + order_begin) (t_last t + order_begin).

  (** compute_separator is any function object: it may have a state of its own. *)
  Context {St : Type} (compute_separator : St -> fragment -> option (St * list bool)).

  (** The local variables of the loop :772-837. *)
  Record sdloop := mkSd { s_st : St; s_tree : list tnode; s_order : list nat; s_pred : nat; s_begin : nat; s_end : nat }.

  (** :772-837; [rec] is the recursive call *)
  Definition sd_part (rec : St -> fragment -> option (St * decomp)) (part : fragment) (s : sdloop) : option sdloop :=
    chk (implb asserts (negb (fr_nodes part =? 0)));;
    if fr_nodes part =? 1 then
      v ← fr_global part !! 0;
      chk (negb (s_end s =? 0));;
      order ← wr (s_order s) (s_end s - 1) v;
      Some (mkSd (s_st s) (s_tree s) order (s_pred s) (s_begin s) (s_end s - 1))
    else
      '(st, sep) ← compute_separator (s_st s) part;
      part ← remove_separator part sep;
      '(st, sub) ← rec st part;
      let size := length (s_tree s) in
      t ← s_tree s !! s_pred s;
      tree ← wr (s_tree s) (s_pred s) (if s_pred s =? 0 then mkNode size (t_right t) (t_first t) (t_last t) else mkNode (t_left t) size (t_first t) (t_last t));
      order ← for_range 0 (length (d_order sub)) (fun i order => v ← d_order sub !! i; wr order (s_begin s + i) v) (s_order s);
      Some (mkSd st (tree ++ (shift_node size (s_begin s) <$> d_tree sub)) order size (s_begin s + length (d_order sub)) (s_end s)).

  (** :740-842; [fuel] bounds the depth of the recursion *)
  Fixpoint separator_decomposition (fuel : nat) (st : St) (g : fragment) : option (St * decomp) :=
    match fuel with
    | 0 => None
    | S fuel =>
      if fr_nodes g =? 1 then Some (st, mkDecomp [mkNode 0 0 0 1] (fr_global g)) else
      parts ← connected_components g;
      s ← for_each parts (sd_part (separator_decomposition fuel)) (mkSd st [mkNode 0 0 0 (fr_nodes g)] (replicate (fr_nodes g) 0) 0 0 (fr_nodes g));
      t ← s_tree s !! 0;
      tree ← wr (s_tree s) 0 (mkNode (t_left t) (t_right t) (s_begin s) (t_last t));
      Some (s_st s, mkDecomp tree (s_order s))
    end.

  (** :844-849 *)
  Definition nested_dissection_order (fuel : nat) (st : St) (g : fragment) : option (list nat) :=
    '(_, d) ← separator_decomposition fuel st g; Some (d_order d).
End Components.
