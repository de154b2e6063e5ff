(** * Model of the strongly connected component computation

    /repo/src/strongly_connected_component.cpp, an iterative variant of Tarjan's
    algorithm.  The value [invalid] of [dfs_pos] is [None]. *)
From Verif Require Import Base.

(** The local variables of [compute_strongly_connected_components], lines 7-28. *)
Record scc_state := SccState {
  dfs_stack : list nat; dfs_top : nat;
  scc_stack : list nat; scc_top : nat;
  in_scc_stack : list bool;
  next_out : list nat;
  dfs_pos : list (option nat); next_preorder_id : nat;
  low_link : list nat;
  in_component : list bool;
  component_of : list nat; component_count : nat
}.

(** [dfs_stack[dfs_stack_top++] = x], lines 32, 62 and 63. *)
Definition push_dfs (x : nat) (s : scc_state) : option scc_state :=
  st ← wr (dfs_stack s) (dfs_top s) x;
  Some (SccState st (S (dfs_top s)) (scc_stack s) (scc_top s) (in_scc_stack s) (next_out s)
    (dfs_pos s) (next_preorder_id s) (low_link s) (in_component s) (component_of s)
    (component_count s)).

(** [x = dfs_stack[--dfs_stack_top]], line 34. *)
Definition pop_dfs (s : scc_state) : option (nat * scc_state) :=
  match dfs_top s with
  | O => None
  | S t => x ← dfs_stack s !! t;
    Some (x, SccState (dfs_stack s) t (scc_stack s) (scc_top s) (in_scc_stack s) (next_out s)
      (dfs_pos s) (next_preorder_id s) (low_link s) (in_component s) (component_of s)
      (component_count s))
  end.

(** Lines 36-42. *)
Definition visit (x : nat) (s : scc_state) : option scc_state :=
  p ← dfs_pos s !! x;
  match p with
  | Some _ => Some s
  | None =>
    dp ← wr (dfs_pos s) x (Some (next_preorder_id s));
    ll ← wr (low_link s) x (next_preorder_id s);
    iss ← wr (in_scc_stack s) x true;
    st ← wr (scc_stack s) (scc_top s) x;
    Some (SccState (dfs_stack s) (dfs_top s) st (S (scc_top s)) iss (next_out s)
      dp (S (next_preorder_id s)) ll (in_component s) (component_of s) (component_count s))
  end.

(** The loop of lines 45-49.  [fuel] bounds the number of iterations. *)
Fixpoint scan (fuel : nat) (head : list nat) (x x_end : nat) (s : scc_state) : option scc_state :=
  match fuel with
  | O => None
  | S fuel =>
    a ← next_out s !! x;
    if decide (a = x_end) then Some s else
    h ← head !! a;
    p ← dfs_pos s !! h;
    match p with
    | None => Some s
    | Some _ =>
      b ← in_scc_stack s !! h;
      ll ← (if b : bool then lx ← low_link s !! x; lh ← low_link s !! h;
              wr (low_link s) x (Nat.min lx lh)
            else Some (low_link s));
      no ← wr (next_out s) x (S a);
      scan fuel head x x_end (SccState (dfs_stack s) (dfs_top s) (scc_stack s) (scc_top s)
        (in_scc_stack s) no (dfs_pos s) (next_preorder_id s) ll (in_component s)
        (component_of s) (component_count s))
    end
  end.

(** The do-while loop of lines 54-59. *)
Fixpoint pop_component (fuel : nat) (x component_id : nat) (s : scc_state) : option scc_state :=
  match fuel with
  | O => None
  | S fuel =>
    match scc_top s with
    | O => None
    | S t =>
      z ← scc_stack s !! t;
      iss ← wr (in_scc_stack s) z false;
      co ← wr (component_of s) z component_id;
      ic ← wr (in_component s) z true;
      let s := SccState (dfs_stack s) (dfs_top s) (scc_stack s) t iss (next_out s)
        (dfs_pos s) (next_preorder_id s) (low_link s) ic co (component_count s) in
      if decide (z = x) then Some s else pop_component fuel x component_id s
    end
  end.

(** One iteration of the loop 33-65. *)
Definition dfs_step (first_out head : list nat) (s : scc_state) : option scc_state :=
  '(x, s) ← pop_dfs s;
  s ← visit x s;
  x_end ← first_out !! S x;
  s ← scan (S (length head)) head x x_end s;
  a ← next_out s !! x;
  if decide (a = x_end) then
    p ← dfs_pos s !! x;
    lx ← low_link s !! x;
    if decide (p = Some lx) then
      let component_id := component_count s in
      pop_component (S (length (scc_stack s))) x component_id
        (SccState (dfs_stack s) (dfs_top s) (scc_stack s) (scc_top s) (in_scc_stack s) (next_out s)
          (dfs_pos s) (next_preorder_id s) (low_link s) (in_component s) (component_of s)
          (S (component_count s)))
    else Some s
  else
    h ← head !! a;
    p ← dfs_pos s !! h;
    match p with
    | None => s ← push_dfs x s; push_dfs h s
    | Some _ => Some s
    end.

(** The loop 33-65. *)
Fixpoint dfs_loop (fuel : nat) (first_out head : list nat) (s : scc_state) : option scc_state :=
  match fuel with
  | O => None
  | S fuel =>
    if decide (dfs_top s = 0) then Some s
    else s ← dfs_step first_out head s; dfs_loop fuel first_out head s
  end.

(** The body of the loop 30-68, including the assertion in line 66. *)
Definition scc_root (first_out head : list nat) (r : nat) (s : scc_state) : option scc_state :=
  b ← in_component s !! r;
  if b : bool then Some s else
  s ← push_dfs r s;
  s ← dfs_loop (2 * length (dfs_pos s) + 1) first_out head s;
  _ ← chk (bool_decide (scc_top s = 0)); Some s.

(** [compute_strongly_connected_components], lines 6-71.  [None] stands for an
    access out of bounds, a violated assertion or non-termination.  The
    uninitialised values of the [std::vector<unsigned>(n)] are zeros. *)
Definition compute_scc (first_out head : list nat) : option (list nat * nat) :=
  let n := length first_out - 1 in
  s ← for_range 0 n (scc_root first_out head)
    (SccState (replicate n 0) 0 (replicate n 0) 0 (replicate n false) first_out
      (replicate n None) 0 (replicate n 0) (replicate n false) (replicate n 0) 0);
  Some (component_of s, component_count s).

(** [compute_largest_strongly_connected_component], lines 74-96. *)
Definition compute_largest_scc (first_out head : list nat) : option (list bool) :=
  let n := length first_out - 1 in
  if decide (0 < n) then
    '(co, cc) ← compute_scc first_out head;
    size ← for_range 0 n (fun x size => c ← co !! x; k ← size !! c; wr size c (S k))
             (replicate cc 0);
    largest ← for_range 1 cc (fun i largest =>
        a ← size !! largest; b ← size !! i;
        Some (if decide (a < b) then i else largest)) 0;
    for_range 0 n (fun x res => c ← co !! x; wr res x (bool_decide (c = largest)))
      (replicate n false)
  else Some (replicate n false).
