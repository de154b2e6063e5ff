(** * C38: nested dissection orders *)
From stdpp Require Import relations.
From Verif Require Import Base GraphSpec UtilSpec FlowModel FlowSpec FlowArray NestedModel NestedSpec NestedArcProofs NestedRemoveProofs NestedCompProofs NestedPartProofs NestedTreeProofs NestedSeparatorProofs.

(** ** The fragment of a graph: every arc that is not a loop in both directions *)
Theorem C38_make_graph_fragment : forall asserts n tail head,
  length tail = length head -> (forall x, x ∈ tail -> x < n) -> (forall x, x ∈ head -> x < n) ->
  exists g, make_graph_fragment asserts n tail head = Some g /\ fragment_ok g /\ fr_global g = seq 0 n /\
    forall x y, arc g x y <-> x <> y /\ exists i, (tail !! i = Some x /\ head !! i = Some y) \/ (tail !! i = Some y /\ head !! i = Some x).
Proof. intros asserts n tail head Hl Ht Hh. exact (make_graph_fragment_spec tail head Hl n Ht Hh asserts). Qed.
Print Assumptions C38_make_graph_fragment.

(** A path 3 - 1 - 4 - 0, an edge 2 - 6 that is there twice, a loop, and the node 5 *)
Definition nested_example : option fragment := make_graph_fragment true 7 [3; 4; 2; 0; 6; 5] [1; 1; 6; 4; 2; 5].
Example nested_example_fragment : nested_example = Some (mkFragment [0; 1; 2; 3; 4; 5; 6] [0; 1; 3; 5; 6; 8; 8; 10] [0; 1; 1; 2; 2; 3; 4; 4; 6; 6] [4; 3; 4; 6; 6; 1; 0; 1; 2; 2] [6; 5; 7; 9; 8; 1; 0; 2; 4; 3]).
Proof. vm_compute. reflexivity. Qed.

(** ** The parts: connected fragments that share the nodes and have all arcs *)
Theorem C38_connected_components : forall asserts g, fragment_ok g -> 0 < fr_nodes g ->
  exists parts, connected_components asserts g = Some parts /\
    (forall p, p ∈ parts -> fragment_ok p /\ 0 < fr_nodes p /\ connected p) /\
    concat (fr_global <$> parts) ≡ₚ fr_global g /\
    (forall u v, adjacent g u v <-> exists p, p ∈ parts /\ adjacent p u v).
Proof.
  intros asserts g Hok Hn. destruct (connected_components_spec asserts g Hok Hn) as (parts & E & [H1 H2 H3]). exists parts.
  split; [done|]. split; [done|]. split; [done|]. intros u v. by rewrite H3.
Qed.
Print Assumptions C38_connected_components.
Example C38_connected_components_ex :
  (g ← nested_example; parts ← connected_components true g; Some (map fr_global parts, map fr_head parts)) =
    Some ([[0; 4; 1; 3]; [2; 6]; [5]], [[1; 0; 2; 1; 3; 2]; [1; 1; 0; 0]; []]).
Proof. vm_compute. reflexivity. Qed.

(** ** Separators from cuts: the nodes of the larger side next to the smaller one. Every arc across the cut has an end in it. *)
Theorem C38_derive_separator : forall g cut, fragment_ok g -> length cut = fr_nodes g ->
  exists sep, derive_separator g cut = Some sep /\ length sep = fr_nodes g /\
    (forall x y, arc g x y -> node_in cut x <> node_in cut y -> node_in sep x = true \/ node_in sep y = true) /\
    (forall y, node_in sep y = true -> node_in cut y <> (count_occ Bool.bool_dec cut true <=? fr_nodes g / 2) /\ exists x, arc g x y /\ node_in cut x <> node_in cut y) /\
    (connected g -> (exists x y, x < fr_nodes g /\ y < fr_nodes g /\ node_in cut x <> node_in cut y) -> exists y, node_in sep y = true).
Proof.
  intros g cut Hok Hl. destruct (derive_separator_spec g Hok cut Hl) as (sep & E & Hsl & H). exists sep. split; [done|]. split; [done|]. split; [|split].
  - intros x y Hxy Hne. set (small := count_occ Bool.bool_dec cut true <=? fr_nodes g / 2) in *. destruct (Bool.bool_dec (node_in cut x) small) as [Ex|Ex].
    + right. apply H. split; [congruence|]. by exists x.
    + left. apply H. split; [done|]. exists y. split; [by apply arc_sym|]. destruct (node_in cut x), (node_in cut y), small; done.
  - intros y (Hy & x & Hxy & Hx)%H. split; [done|]. exists x. split; [done|]. congruence.
  - intros Hc Hp. exact (derive_separator_nonempty g Hok cut Hl sep Hc E Hp).
Qed.
Print Assumptions C38_derive_separator.
Example C38_derive_separator_ex : (g ← make_graph_fragment true 6 [0; 1; 2; 3; 4; 1] [1; 2; 3; 4; 5; 4]; derive_separator g [true; true; true; true; false; false]) = Some [false; true; false; true; false; false].
Proof. vm_compute. reflexivity. Qed.

(** ** Removing a separator: the nodes stay, and so do the arcs that do not touch it. *)
Theorem C38_remove_separator : forall g sep, fragment_ok g -> length sep = fr_nodes g ->
  exists g', remove_separator g sep = Some g' /\ fragment_ok g' /\ fr_global g' = fr_global g /\
    forall x y, arc g' x y <-> arc g x y /\ node_in sep x = false /\ node_in sep y = false.
Proof. intros g sep Hok Hl. by apply remove_separator_spec. Qed.
Print Assumptions C38_remove_separator.
Example C38_remove_separator_ex : (g ← nested_example; remove_separator g [false; true; false; false; false; false; false]) =
  Some (mkFragment [0; 1; 2; 3; 4; 5; 6] [0; 1; 1; 3; 3; 4; 4; 6] [0; 2; 2; 4; 6; 6] [4; 6; 6; 0; 2; 2] [3; 5; 4; 0; 2; 1]).
Proof. vm_compute. reflexivity. Qed.

(** ** The decomposition *)
Definition C38_statement : Prop := forall asserts St (compute_separator : St -> fragment -> option (St * list bool)) st g,
  fragment_ok g -> NoDup (fr_global g) -> makes_progress g compute_separator ->
  exists fuel st' d, separator_decomposition asserts compute_separator fuel st g = Some (st', d) /\ is_decomposition g d.

(** Of a graph without nodes the code makes one part with one node, which it reads from behind the end of global_node_id (:704, 721 and 693). *)
Theorem C38_refuted : ~ C38_statement.
Proof.
  intros H. destruct (H false unit (fun st _ => Some (st, [])) tt (mkFragment [] [0] [] [] [])) as (fuel & st' & d & E & _).
  - split; cbn; [split; cbn; [done|done| |done|]|done| |done|done|done].
    + intros i lo hi Hi Hi'. by destruct i.
    + intros x Hx. by apply elem_of_nil in Hx.
    + intros x a. split; [done|]. intros (lo & hi & _ & E & _). by destruct x.
  - constructor.
  - intros st part _ _ H2 _ Hsub. destruct (fr_global part) as [|u l] eqn:E; [unfold fr_nodes in H2; rewrite E in H2; cbn in H2; lia|].
    specialize (Hsub u ltac:(apply elem_of_list_here)). by apply elem_of_nil in Hsub.
  - destruct fuel; done.
Qed.
Print Assumptions C38_refuted.

(** With a node it holds: whatever the separator function does, as long as it marks a node of every connected graph with two nodes or
    more, the recursion ends; the order is a permutation of the nodes; the array is the layout of a tree of separators; its ranges are
    the order from the front to the end; and nodes below different children are not adjacent. *)
Theorem C38_decomposition_partial : forall asserts St (compute_separator : St -> fragment -> option (St * list bool)) fuel st g,
  fragment_ok g -> NoDup (fr_global g) -> 0 < fr_nodes g -> makes_progress g compute_separator -> fr_nodes g < fuel ->
  exists st' d, separator_decomposition asserts compute_separator fuel st g = Some (st', d) /\ is_decomposition g d.
Proof.
  intros asserts St sepf fuel st g Hok Hnd Hn Hp Hf.
  destruct (separator_decomposition_spec asserts g sepf Hp fuel st g Hok Hnd Hn) as (st' & d & E & H1 & a & cs & H2 & H3 & H4 & _).
  - done.
  - intros l Hl Hadj. apply (Nat.le_lt_trans _ (fr_nodes g)); [|done]. apply submseteq_length, NoDup_submseteq; [done|].
    intros u Hu. destruct (Hadj u Hu) as (v & [H _]%adjacent_in). done.
  - exists st', d. split; [done|]. split; [done|]. eexists. split; [done|]. split; [by exists a, cs|]. cbn [decomposes]. split; [done|]. split; [done|]. split; [done|]. lia.
Qed.
Print Assumptions C38_decomposition_partial.

(** The order of the nodes of a graph. *)
Theorem C38_order_partial : forall asserts St (compute_separator : St -> fragment -> option (St * list bool)) st n tail head,
  length tail = length head -> (forall x, x ∈ tail -> x < n) -> (forall x, x ∈ head -> x < n) -> 0 < n ->
  (forall g, fr_global g = seq 0 n -> makes_progress g compute_separator) ->
  exists g order, make_graph_fragment asserts n tail head = Some g /\ nested_dissection_order asserts compute_separator (S n) st g = Some order /\ perm order /\ length order = n.
Proof.
  intros asserts St sepf st n tail head Hl Ht Hh Hn Hp. destruct (C38_make_graph_fragment asserts n tail head Hl Ht Hh) as (g & E & Hok & Hg & _).
  assert (fr_nodes g = n) as En by (unfold fr_nodes; by rewrite Hg, seq_length).
  destruct (C38_decomposition_partial asserts St sepf (S n) st g Hok) as (st' & d & Ed & Ho & _); [rewrite Hg; apply NoDup_seq|lia|by apply Hp|lia|].
  exists g, (d_order d). split; [done|]. unfold nested_dissection_order. rewrite Ed, bind_S. split; [done|]. rewrite Hg in Ho. pose proof (Permutation_length Ho) as Hlen. rewrite seq_length in Hlen.
  split; [|done]. unfold perm. by rewrite Hlen.
Qed.
Print Assumptions C38_order_partial.

(** In a decomposition the positions of the order belong to exactly one range. *)
Fixpoint ranges (f : forest) : list (nat * nat) := match f with FNil => [] | FNode a b cs ss => ranges cs ++ (a, b) :: ranges ss end.
Theorem C38_ranges : forall adj f lo hi p, decomposes adj f lo hi -> lo <= p < hi ->
  exists l1 a b l2, ranges f = l1 ++ (a, b) :: l2 /\ a <= p < b /\ forall a' b', (a', b') ∈ l1 ++ l2 -> ~ a' <= p < b'.
Proof.
  assert (forall adj f lo hi a b, decomposes adj f lo hi -> (a, b) ∈ ranges f -> lo <= a /\ a <= b /\ b <= hi) as Hb.
  { intros adj f. induction f as [|a b cs IH1 ss IH2]; cbn; intros lo hi a' b' Hd Hin; [by apply elem_of_nil in Hin|]. destruct Hd as (H1 & H2 & H3 & _).
    pose proof (dec_le _ _ _ _ H1). pose proof (dec_le _ _ _ _ H3). apply elem_of_app in Hin as [Hin|Hin]; [specialize (IH1 _ _ _ _ H1 Hin); lia|].
    apply elem_of_cons in Hin as [[= -> ->]|Hin]; [lia|]. specialize (IH2 _ _ _ _ H3 Hin). lia. }
  intros adj f. induction f as [|a b cs IH1 ss IH2]; cbn; intros lo hi p Hd Hp; [lia|]. destruct Hd as (H1 & H2 & H3 & _).
  destruct (decide (p < a)) as [Hpa|Hpa].
  - destruct (IH1 lo a p H1 ltac:(lia)) as (l1 & a' & b' & l2 & E & Hin & Hout). exists l1, a', b', (l2 ++ (a, b) :: ranges ss). rewrite E, <- (assoc_L (++)). split; [done|]. split; [done|].
    intros a2 b2 Hin2. rewrite (assoc_L (++)) in Hin2. apply elem_of_app in Hin2 as [Hin2|Hin2]; [by apply Hout|]. apply elem_of_cons in Hin2 as [[= -> ->]|Hin2]; [lia|].
    pose proof (Hb _ _ _ _ _ _ H3 Hin2). lia.
  - destruct (decide (p < b)) as [Hpb|Hpb].
    + exists (ranges cs), a, b, (ranges ss). split; [done|]. split; [lia|]. intros a2 b2 [Hin|Hin]%elem_of_app; [pose proof (Hb _ _ _ _ _ _ H1 Hin); lia|pose proof (Hb _ _ _ _ _ _ H3 Hin); lia].
    + destruct (IH2 b hi p H3 ltac:(lia)) as (l1 & a' & b' & l2 & E & Hin & Hout). exists (ranges cs ++ (a, b) :: l1), a', b', l2. rewrite E, <- (assoc_L (++)). split; [done|]. split; [done|].
      intros a2 b2 Hin2. rewrite <- (assoc_L (++)) in Hin2. apply elem_of_app in Hin2 as [Hin2|Hin2]; [pose proof (Hb _ _ _ _ _ _ H1 Hin2); lia|].
      cbn in Hin2. apply elem_of_cons in Hin2 as [[= -> ->]|Hin2]; [lia|]. by apply Hout.
Qed.
Print Assumptions C38_ranges.

(** A function that counts its calls and marks the node that it finds at half of the nodes, and another node in every second call *)
Definition example_separator (st : nat) (g : fragment) : option (nat * list bool) :=
  let sep := <[fr_nodes g / 2 := true]> (replicate (fr_nodes g) false) in
  Some (S st, if st mod 2 =? 1 then <[0 := true]> sep else sep).
Example example_separator_progress : forall g, makes_progress g example_separator.
Proof.
  intros g st part _ _ Hn _ _. eexists _, _. split; [done|].
  assert (fr_nodes part / 2 < fr_nodes part) as Hlt by (apply Nat.div_lt; lia).
  assert (node_in (<[fr_nodes part / 2 := true]> (replicate (fr_nodes part) false)) (fr_nodes part / 2) = true) as H.
  { rewrite node_in_insert by (by rewrite replicate_length). by rewrite decide_True. }
  destruct (st mod 2 =? 1).
  - rewrite !insert_length, replicate_length. split; [done|]. exists (fr_nodes part / 2). rewrite node_in_insert by (rewrite insert_length, replicate_length; lia). case_decide; done.
  - rewrite insert_length, replicate_length. split; [done|]. by exists (fr_nodes part / 2).
Qed.
(** A path of eight nodes and a triangle with a tail *)
Definition nested_example2 : option fragment := make_graph_fragment true 13 [0; 1; 2; 3; 4; 5; 6; 8; 9; 10; 10] [1; 2; 3; 4; 5; 6; 7; 9; 10; 8; 11].
Example C38_decomposition_ex :
  (g ← nested_example2; '(st, d) ← separator_decomposition true example_separator 14 0 g; Some (st, d_order d, map (fun t => (t_left t, t_right t, t_first t, t_last t)) (d_tree d))) =
    Some (5, [3; 2; 1; 0; 7; 6; 5; 4; 9; 10; 11; 8; 12], [(1, 0, 12, 13); (2, 4, 7, 8); (0, 3, 0, 4); (0, 0, 4, 7); (5, 0, 10, 12); (0, 0, 8, 10)]).
Proof. vm_compute. reflexivity. Qed.
