(** Perfect customization: src/customizable_contraction_hierarchy.cpp:1727-1891,
    build_contraction_hierarchy_using_perfect_witness_search. Line numbers refer to that file. The
    BitVectors that say which arcs are kept are lists of booleans (C04, C05), LocalIDMapper is
    [local_id] (C06). *)
From Verif Require Import Base PermutationModel CchModel ChBuildModel ChCheckModel.

(** The metric and the flags keep_forward_arc, keep_backward_arc. *)
Record pstate := mkPstate { ps_m : metric; ps_kf : list bool; ps_kb : list bool }.

(** :1730-1740, one direction *)
Definition keep_finite (count : nat) (v : list N) : option (list bool) :=
  for_range 0 count (fun a k => x ← v !! a; if (x =? inf_weight)%N then wr k a false else Some k) (replicate count true).

(** :1750-1753 (1755-1758, 1760-1763, 1765-1768): lower [v !! a] to [x] and drop the arc. *)
Definition lower_arc (v : list N) (k : list bool) (a : nat) (x : N) : option (list N * list bool) :=
  o ← v !! a; if (x <? o)%N then v ← wr v a x; k ← wr k a false; Some (v, k) else Some (v, k).
(** :1750-1769 *)
Definition upper_relax (bottom mid top : nat) (s : pstate) : option pstate :=
  let '(mkPstate (mkMetric f b) kf kb) := s in
  x ← f !! mid; y ← b !! top; '(f, kf) ← lower_arc f kf bottom (add32 x y);
  x ← b !! mid; y ← f !! top; '(b, kb) ← lower_arc b kb bottom (add32 x y);
  x ← f !! bottom; y ← f !! top; '(f, kf) ← lower_arc f kf mid (add32 x y);
  x ← b !! bottom; y ← b !! top; '(b, kb) ← lower_arc b kb mid (add32 x y);
  Some (mkPstate (mkMetric f b) kf kb).
(** :1742-1772; the loop goes from the last arc to the first *)
Definition perfect_loop (c : cch) (s : pstate) : option pstate :=
  for_range 0 (c_arc_count c) (fun i s =>
    '(s, _) ← forall_upper_triangles_of_arc c (c_arc_count c - 1 - i)
       (fun bottom mid top _ _ _ s => s ← upper_relax bottom mid top s; Some (s, true)) s;
    Some s) s.
(** :1728-1772 *)
Definition perfect_weights (c : cch) (w : list N) (m : metric) : option pstate :=
  m ← customize c w m;
  kf ← keep_finite (c_arc_count c) (m_fwd m); kb ← keep_finite (c_arc_count c) (m_bwd m);
  perfect_loop c (mkPstate m kf kb).

(** :1774-1798, compiled only with assertions. Line 1794 compares backward[mid_arc] with itself. *)
Definition verify_triangle (m : metric) (bottom mid top : nat) : option unit :=
  fb ← m_fwd m !! bottom; bb ← m_bwd m !! bottom; fm ← m_fwd m !! mid; bm ← m_bwd m !! mid; ft ← m_fwd m !! top; bt ← m_bwd m !! top;
  chk ((ft <=? add32 bb fm)%N && (bt <=? add32 fb bm)%N && (fb <=? add32 fm bt)%N && (bb <=? add32 bm ft)%N &&
       (fm <=? add32 fb ft)%N && (bm <=? add32 bm bt)%N).
Definition verify_perfect (c : cch) (m : metric) : option unit :=
  for_range 0 (c_arc_count c) (fun a _ =>
    _ ← forall_upper_triangles_of_arc c a (fun bottom mid top _ _ _ _ => _ ← verify_triangle m bottom mid top; Some (tt, true)) tt;
    Some tt) tt.

(** :1837-1847 ([d]) and 1867-1877: the first lower triangle both halves of which are kept and add up
    to the weight of the arc; the ids of the halves in the result. *)
Definition find_triangle (c : cch) (s : pstate) (d : bool) (a : nat) : option (option (nat * nat)) :=
  let f := m_fwd (ps_m s) in let b := m_bwd (ps_m s) in
  '(r, _) ← forall_lower_triangles_of_arc c a
    (fun bottom mid top _ _ _ r =>
       let back := if d then bottom else mid in let forth := if d then mid else bottom in
       k1 ← ps_kb s !! back; k2 ← ps_kf s !! forth;
       if (k1 && k2 : bool) then
         x ← b !! back; y ← f !! forth; v ← (if d then f else b) !! top;
         if (add32 x y =? v)%N then
           i ← local_id (ps_kb s) back; j ← local_id (ps_kf s) forth; Some (Some (i, j), false)
         else Some (r, true)
       else Some (r, true)) None;
  Some r.

(** :1821-1850 ([d]) and 1851-1880: the entry of one kept arc. *)
Definition fill_entry (asserts : bool) (c : cch) (w : list N) (s : pstate) (d : bool) (a : nat)
    (e : list bool * list nat * list nat) : option (list bool * list nat * list nat) :=
  let '(orig, first, second) := e in
  let keep := if d then ps_kf s else ps_kb s in
  k ← keep !! a;
  if negb k then Some e else
  i ← local_id keep a;
  o ← unpack_original c w d (ps_m s) a;
  match o with
  | Some e =>
      x ← (if d then up_head c else up_tail c) !! a; y ← c_order c !! x;
      orig ← wr orig i true; first ← wr first i e; second ← wr second i y;
      Some (orig, first, second)
  | None =>
      r ← find_triangle c s d a;
      match r with
      | Some (p, q) => first ← wr first i p; second ← wr second i q; Some (orig, first, second)
      | None => _ ← chk (negb asserts); Some e
      end
  end.

(** :1800-1818, one direction without the entries *)
Definition kept_side (c : cch) (keep : list bool) (v : list N) : option (list nat * list nat * list N) :=
  h ← keep_element_of_vector_if keep (up_head c);
  t ← keep_element_of_vector_if keep (up_tail c);
  fo ← invert_vector t (c_node_count c);
  x ← keep_element_of_vector_if keep v;
  Some (fo, h, x).
(** :1806-1809 *)
Definition empty_entries (keep : list bool) (h : list nat) : list bool * list nat * list nat :=
  let count := length (filter Is_true keep) in
  (replicate (length h) false, replicate count 0, replicate count 0).

(** :1800-1885 *)
Definition extract_ch (asserts : bool) (c : cch) (w : list N) (s : pstate) : option ch :=
  '(ff, fh, fw) ← kept_side c (ps_kf s) (m_fwd (ps_m s));
  '(bf, bh, bw) ← kept_side c (ps_kb s) (m_bwd (ps_m s));
  '((fo, f1, f2), (bo, b1, b2)) ←
     for_range 0 (c_arc_count c) (fun a '(ef, eb) =>
       ef ← fill_entry asserts c w s true a ef; eb ← fill_entry asserts c w s false a eb; Some (ef, eb))
     (empty_entries (ps_kf s) fh, empty_entries (ps_kb s) bh);
  Some (mkCh (c_rank c) (c_order c) (mkChside ff fh fw fo f1 f2) (mkChside bf bh bw bo b1 b2)).

(** :1727-1891: the hierarchy, or [Some None] if the check at the end throws. *)
Definition build_ch_perfect (asserts : bool) (c : cch) (w : list N) (m : metric) : option (option ch) :=
  s ← perfect_weights c w m;
  _ ← (if asserts then verify_perfect c (ps_m s) else Some tt);
  h ← extract_ch asserts c w s;
  ok ← check_ch h;
  Some (if (ok : bool) then Some h else None).
