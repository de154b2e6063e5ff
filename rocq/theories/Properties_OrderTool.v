(** C68: compute_nested_dissection_order writes an order of all nodes of a stored graph; the sides of its cuts are grown from nodes that are
    extreme by their coordinates. C69: queries with such an order give distances. *)
From Verif Require Import Base UtilSpec GraphSpec PathSpec ProtobufModel VectorIoModel PermutationModel ChFileModel DistanceToolModel DistanceToolSpec DistanceToolProofs DistanceToolChProofs
  FlowModel FlowSpec NestedModel NestedSpec InertialModel InertialSpec InertialProofs OrderToolModel OrderToolSpec OrderToolProofs Properties_Nested Properties_Inertial Properties_VectorIo Properties_DistanceTool
  Properties_GeoTree CchModel CchSpec CchBuildModel CchApiSpec CchApiProofs Properties_Cch WalkSpec.
Ltac Zify.zify_post_hook ::= idtac.

(** ** C68 *)
(** The nodes between which inertial flow cuts: the array has all nodes, no other node has a smaller key than the first ones and none has a
    larger one than the last. *)
Theorem C68_extremes : forall nth_element side n less, nth_element_ok nth_element -> 2 * side <= n -> weak_order (fun x => x < n) less ->
  let v := place_nodes nth_element side n less in perm v /\ length v = n /\ extremes less side v.
Proof. intros nth_element side n less H. exact (place_nodes_spec nth_element H side n less). Qed.
Print Assumptions C68_extremes.

(** The cut that inertial flow makes for a balance: a minimum cut between the extreme nodes by the latitude, the longitude, their sum or their
    difference; those of the other three do not have a smaller one. *)
Theorem C68_cut : forall asserts F (fplus fminus : F -> F -> F) flt nth_element garbage latitude longitude g b,
  nth_element_ok nth_element -> garbage_ok g garbage -> comparable fplus fminus flt latitude longitude ->
  fragment_ok g -> 2 <= fr_nodes g -> (b <= 50)%N -> (forall u, u ∈ fr_global g -> u < length latitude /\ u < length longitude) ->
  let side := side_size (fr_nodes g) b in
  let less := key_less fplus fminus flt latitude longitude g in
  let ends i A B := exists v, perm v /\ length v = fr_nodes g /\ extremes (less i) side v /\ first_last g side v A B in
  exists c, inertial_flow asserts g b (fun i => place_nodes nth_element side (fr_nodes g) (less i)) garbage = Some c /\
    (exists i A B, i < 4 /\ ends i A B /\ (minimum_cut g A B c \/ minimum_cut g B A c)) /\
    (forall i, i < 4 -> exists A B, ends i A B /\ forall S, separates g S A B -> c_size c <= cut_arcs g S) /\
    side <= c_count c /\ c_count c + side <= fr_nodes g.
Proof.
  intros asserts F fplus fminus flt nth_element garbage latitude longitude g b Hnth Hg Hc Hok Hn Hb Hu side less ends.
  pose proof (places_ok fplus fminus flt nth_element Hnth latitude longitude Hc g b Hn Hb Hu) as Ho. unfold places in Ho. fold side less in Ho.
  destruct (C47_flow asserts g b (fun i => place_nodes nth_element side (fr_nodes g) (less i)) garbage Hok Hn Hb Ho Hg) as (c & E & (i & A & B & Hi & F1 & Hm) & Hall & Hcount).
  exists c. split; [done|].
  assert (forall i A B, first_last g side (place_nodes nth_element side (fr_nodes g) (less i)) A B -> ends i A B) as Hends.
  { intros j A' B' HF. exists (place_nodes nth_element side (fr_nodes g) (less j)). destruct (side_size_spec (fr_nodes g) b Hn Hb) as [_ H2].
    destruct (place_nodes_spec nth_element Hnth side (fr_nodes g) (less j) H2 (key_weak_order fplus fminus flt latitude longitude Hc g j Hu)) as (H & H' & H''). done. }
  split; [|split; [|done]].
  - exists i, A, B. split; [done|]. split; [by apply Hends|done].
  - intros j Hj. destruct (Ho j Hj) as [Hp Hl]. destruct (side_size_spec (fr_nodes g) b Hn Hb) as [H1 H2].
    destruct (select_spec asserts g side _ Hp Hl H1 H2) as (A' & B' & _ & HF). exists A', B'. split; [by apply Hends|]. intros S HS. by eapply Hall.
Qed.
Print Assumptions C68_cut.

(** Files with coordinates: [encode] gives the four bytes of a number, [value] reads them. *)
Definition coordinate_file {F} (encode : F -> list N) (l : list F) : list N := concat (encode <$> l).
(** Positions of an order with an arc between their nodes, in one direction or the other *)
Definition linked (tail head order : list nat) (p q : nat) : Prop :=
  exists u v e, order !! p = Some u /\ order !! q = Some v /\ u <> v /\ ((tail !! e = Some u /\ head !! e = Some v) \/ (tail !! e = Some v /\ head !! e = Some u)).

Lemma decomposes_sub (adj adj' : nat -> nat -> Prop) f : (forall p q, adj' p q -> adj p q) -> forall lo hi, decomposes adj f lo hi -> decomposes adj' f lo hi.
Proof.
  intros H. induction f as [|a b cs IH1 ss IH2]; cbn; intros lo hi Hd; [done|]. destruct Hd as (H1 & H2 & H3 & H4). split; [by apply IH1|]. split; [done|]. split; [by apply IH2|].
  intros p q Hp Hq. destruct (H4 p q Hp Hq) as [N1 N2]. split; intros Ha; [apply N1|apply N2]; by apply H.
Qed.

(** The program writes a permutation of the nodes. It is the order of a decomposition: the positions of the separators form a forest with one
    root, and there are no arcs between the positions of different subtrees. Missing are graphs without nodes, with too few coordinates, or
    with coordinates that can not be compared. *)
Theorem C68_order_partial : forall asserts F (fplus fminus : F -> F -> F) flt nth_element garbage encode value ok fo tail head latitude longitude,
  nth_element_ok nth_element -> (forall part b, garbage_ok part (garbage part b)) -> comparable fplus fminus flt latitude longitude ->
  image 4 encode value ok -> Forall ok latitude -> Forall ok longitude ->
  csr (length fo - 1) fo head -> tails_ok fo tail head -> fits32 (length fo) -> fits32 (length head) ->
  0 < length fo - 1 <= length latitude -> length fo - 1 <= length longitude ->
  exists order, compute_nested_dissection_order asserts fplus fminus flt nth_element garbage value (id_file fo) (id_file head) (coordinate_file encode latitude) (coordinate_file encode longitude)
      = Some (Ret (id_file order)) /\
    perm order /\ length order = length fo - 1 /\
    exists a cs, decomposes (linked tail head order) (FNode a (length order) cs FNil) 0 (length order).
Proof.
  intros asserts F fplus fminus flt nth_element garbage encode value ok fo tail head latitude longitude Hnth Hg Hc Hi H1 H2 Hcsr Ht Hf Hh Hn Hlon.
  destruct (csr_fits _ _ Hcsr Hf Hh) as [F1 F2]. set (n := length fo - 1) in *.
  destruct (tails_exist _ _ Hcsr) as (tail' & Einv & Ht'). assert (tail' = tail) as -> by (by eapply tails_unique).
  pose proof (csr_tails_lt _ _ _ _ Hcsr Ht) as Hlt. rewrite Forall_forall in Hlt.
  destruct (C38_make_graph_fragment asserts n tail head (proj1 Ht) Hlt (csr_head _ _ _ Hcsr)) as (g & E & Hok & Hgl & Harc).
  assert (fr_nodes g = n) as En by (unfold fr_nodes; by rewrite Hgl, seq_length).
  assert (forall u, u ∈ fr_global g -> u < length latitude /\ u < length longitude) as Hu.
  { intros u Hu. rewrite Hgl in Hu. apply elem_of_seq in Hu. lia. }
  destruct (C38_decomposition_partial asserts unit (coordinate_separator asserts fplus fminus flt nth_element garbage latitude longitude) (S n) tt g Hok) as ([] & d & Ed & Ho & f & _ & (a & cs & ->) & Hd).
  { rewrite Hgl. apply NoDup_seq. }
  { lia. }
  { by apply coordinates_progress. }
  { lia. }
  assert (length (d_order d) = n) as Lo by (rewrite Ho, Hgl; apply seq_length).
  exists (d_order d). split_and!.
  - unfold compute_nested_dissection_order. rewrite (load_id_file fo F1), (load_id_file head F2). cbn [andthen]. rewrite Einv, bind_S.
    unfold coordinate_file.
    pose proof (C40_vector 4 encode value ok latitude Hi H1) as E1. pose proof (C40_vector 4 encode value ok longitude Hi H2) as E2.
    unfold save_vector in E1, E2. rewrite E1, E2. cbn [andthen].
    fold n. unfold nested_dissection_order_by_coordinates. rewrite E, bind_S. unfold nested_dissection_order. by rewrite Ed, !bind_S.
  - unfold perm. by rewrite Lo, Ho, Hgl.
  - done.
  - exists a, cs. rewrite En in Hd. rewrite Lo. eapply decomposes_sub; [|exact Hd].
    intros p q (u & v & e & Hp & Hq & Huv & He). exists u, v. split; [done|]. split; [done|].
    destruct (proj2 (Harc u v)) as (k & Ha1 & Ha2); [by eauto|].
    assert (forall x u, fr_tail g !! x = Some u \/ fr_head g !! x = Some u -> u < n) as Hb.
    { intros x y [Hx|Hx].
      - apply (fo_tail _ Hok) in Hx. rewrite <- En. by apply (out_arc_lt _ _ _ _ _ (fo_csr _ Hok)) in Hx as [? _].
      - rewrite <- En. eapply (csr_head _ _ _ (fo_csr _ Hok)). by eapply elem_of_list_lookup_2. }
    exists k, u, v. split; [done|]. split; [done|]. rewrite Hgl. split; apply lookup_seq; split; try lia; eauto.
Qed.
Print Assumptions C68_order_partial.

(** ** An instance: whole numbers and NaN, and nth_element by sorting *)
Definition zn := option Z.
Definition zn_op (f : Z -> Z -> Z) (a b : zn) : zn := match a, b with Some a, Some b => Some (f a b) | _, _ => None end.
Definition zn_lt (a b : zn) : bool := match a, b with Some a, Some b => (a <? b)%Z | _, _ => false end.
Definition zn_encode (a : zn) : list N := le_bytes 4 (match a with Some a => Z.to_N a | None => 4294967295%N end).
Definition zn_value (bs : list N) : zn := if (le_word bs =? 4294967295)%N then None else Some (Z.of_N (le_word bs)).
Definition zn_ok (a : zn) : Prop := match a with Some a => (0 <= a < 4294967295)%Z | None => True end.
Example zn_image : image 4 zn_encode zn_value zn_ok.
Proof.
  split; [lia|]. intros [a|] H; cbn in H.
  - destruct (C40_unsigned 4 ltac:(lia)) as [_ Hi]. unfold zn_encode, zn_value. destruct (Hi (Z.to_N a)) as [L ->]; [change (256 ^ N.of_nat 4)%N with 4294967296%N; lia|].
    split; [done|]. destruct (N.eqb_spec (Z.to_N a) 4294967295); [lia|]. by rewrite Z2N.id by lia.
  - split; vm_compute; reflexivity.
Qed.
Fixpoint insert_by (less : nat -> nat -> bool) (x : nat) (l : list nat) : list nat :=
  match l with [] => [x] | y :: l' => if less y x then y :: insert_by less x l' else x :: l end.
Definition sort_nth (less : nat -> nat -> bool) (k : nat) (l : list nat) : list nat := foldr (insert_by less) [] l.
Lemma insert_by_perm less x l : insert_by less x l ≡ₚ x :: l.
Proof. induction l as [|y l IH]; cbn; [done|]. destruct (less y x); [|done]. rewrite IH. by constructor. Qed.
Lemma insert_by_sorted less x l : weak_order (fun y => y ∈ x :: l) less -> StronglySorted (fun x y => less y x = false) l -> StronglySorted (fun x y => less y x = false) (insert_by less x l).
Proof.
  intros Hw. induction l as [|y l IH]; intros Hs; cbn; [repeat constructor|]. inversion Hs as [|? ? Hs' Hy]; subst.
  destruct (less y x) eqn:E.
  - constructor.
    + apply IH; [|done]. eapply weak_order_mono; [|exact Hw]. cbn. intros z Hz. set_solver.
    + rewrite insert_by_perm. constructor; [|done].
      destruct (less x y) eqn:E'; [|done]. rewrite <- (wo_irrefl _ _ Hw x) by set_solver. symmetry. eapply (wo_trans _ _ Hw x y x); set_solver.
  - constructor; [done|]. constructor; [done|]. rewrite Forall_forall in Hy |- *. intros z Hz.
    destruct (less z x) eqn:E'; [|done]. exfalso. destruct (wo_split _ _ Hw z y x) as [H|H]; [set_solver..|done| |].
    + rewrite Hy in H; done.
    + by rewrite E in H.
Qed.
Example sort_nth_ok : nth_element_ok sort_nth.
Proof.
  intros less k l Hw Hk. unfold sort_nth.
  assert (foldr (insert_by less) [] l ≡ₚ l) as Hp.
  { clear. induction l as [|x l IH]; cbn; [done|]. rewrite insert_by_perm. by constructor. }
  split; [done|].
  assert (StronglySorted (fun x y => less y x = false) (foldr (insert_by less) [] l)) as Hs.
  { clear Hk Hp. induction l as [|x l IH]; cbn; [constructor|]. assert (foldr (insert_by less) [] l ≡ₚ l) as Hp.
    { clear. induction l as [|x l IH]; cbn; [done|]. rewrite insert_by_perm. by constructor. }
    apply insert_by_sorted.
    - eapply weak_order_mono; [|exact Hw]. cbn. intros y. by rewrite Hp.
    - apply IH. eapply weak_order_mono; [|exact Hw]. cbn. set_solver. }
  intros i j x y Hi Hj Hx Hy. assert (i < j) as Hlt by lia. exact (StronglySorted_lookup _ _ _ _ _ _ Hs Hx Hy Hlt).
Qed.
Lemma zn_comparable lat lon : (forall a, a ∈ lat -> a <> None) -> (forall a, a ∈ lon -> a <> None) -> comparable (zn_op Z.add) (zn_op Z.sub) zn_lt lat lon.
Proof.
  intros H1 H2. exists (fun a => a <> None). split.
  - split; repeat intros [?|]; try done; unfold zn_lt; intros; rewrite ?Z.ltb_lt, ?Z.ltb_ge, ?Z.ltb_irrefl in *; try done; lia.
  - intros i a b Ha Hb. apply elem_of_list_lookup_2, H1 in Ha. apply elem_of_list_lookup_2, H2 in Hb. by destruct a, b.
Qed.

(** Two triangles that are joined by one edge; the nodes have the coordinates (0,0), (1,2), (2,0), (5,0), (6,2), (7,0). *)
Definition order_fo := [0; 2; 4; 6; 8; 10; 12].
Definition order_head := [1; 2; 0; 2; 1; 3; 4; 5; 3; 5; 3; 4].
Definition order_tail := [0; 0; 1; 1; 2; 2; 3; 3; 4; 4; 5; 5].
Definition order_lon : list zn := Some <$> [0; 1; 2; 5; 6; 7]%Z.
Definition order_lat : list zn := Some <$> [0; 2; 0; 0; 2; 0]%Z.
Definition order_program asserts := compute_nested_dissection_order asserts (zn_op Z.add) (zn_op Z.sub) zn_lt sort_nth example_garbage zn_value.
Lemma order_csr : csr (length order_fo - 1) order_fo order_head /\ tails_ok order_fo order_tail order_head.
Proof.
  assert (csr (length order_fo - 1) order_fo order_head) as H.
  { split; [done|done| |done|].
    - intros i lo hi. do 7 (destruct i as [|i]; [cbn; intros; simplify_eq; lia|]). done.
    - intros x Hx. apply elem_of_list_In in Hx. cbn in Hx. cbn. lia. }
  split; [done|]. destruct (tails_exist _ _ H) as (t & E & Ht). assert (Some t = Some order_tail) as [= ->]; [|done]. rewrite <- E. vm_compute. reflexivity.
Qed.
Example C68_ex : order_program true (id_file order_fo) (id_file order_head) (coordinate_file zn_encode order_lat) (coordinate_file zn_encode order_lon) = Some (Ret (id_file [1; 0; 5; 4; 3; 2])) /\
  nth_element_ok sort_nth /\ (forall part b, garbage_ok part (example_garbage part b)) /\ comparable (zn_op Z.add) (zn_op Z.sub) zn_lt order_lat order_lon /\
  image 4 zn_encode zn_value zn_ok /\ Forall zn_ok order_lat /\ Forall zn_ok order_lon /\ 0 < length order_fo - 1 <= length order_lat /\ length order_fo - 1 <= length order_lon.
Proof.
  split; [vm_compute; reflexivity|]. split; [apply sort_nth_ok|]. split; [apply example_garbage_ok|]. split.
  { apply zn_comparable; intros a Ha; apply elem_of_list_In in Ha; cbn in Ha; intuition congruence. }
  split; [apply zn_image|]. split; [|split].
  - repeat (constructor; [cbn; lia|]). constructor.
  - repeat (constructor; [cbn; lia|]). constructor.
  - cbn. lia.
Qed.

(** A graph without nodes, a graph with two nodes and one latitude, and one with a coordinate that is not a number; in all of them the behaviour is undefined. *)
Theorem C68_order_refuted :
  (exists fo head, csr (length fo - 1) fo head /\ forall asserts, order_program asserts (id_file fo) (id_file head) [] [] = None) /\
  (exists fo head lat lon, csr (length fo - 1) fo head /\ length lon = length fo - 1 /\ length lat < length fo - 1 /\
    forall asserts, order_program asserts (id_file fo) (id_file head) (coordinate_file zn_encode lat) (coordinate_file zn_encode lon) = None) /\
  (exists fo head lat lon, csr (length fo - 1) fo head /\ length lon = length fo - 1 /\ length lat = length fo - 1 /\
    forall asserts, order_program asserts (id_file fo) (id_file head) (coordinate_file zn_encode lat) (coordinate_file zn_encode lon) = None).
Proof.
  assert (csr 0 [0] []) as C0.
  { split; [done|done| |done|by intros x ?%elem_of_nil]. by intros [|i] lo hi. }
  assert (csr 3 [0; 2; 3; 4] [1; 2; 0; 0]) as C3.
  { split; [done|done| |done|].
    - intros i lo hi. do 4 (destruct i as [|i]; [cbn; intros; simplify_eq; lia|]). done.
    - intros x Hx. apply elem_of_list_In in Hx. cbn in Hx. lia. }
  split; [|split].
  - exists [0], []. split; [exact C0|]. intros []; vm_compute; reflexivity.
  - exists [0; 2; 3; 4], [1; 2; 0; 0], (Some <$> [1; 2]%Z), (Some <$> [1; 2; 3]%Z). split; [exact C3|]. split; [done|]. split; [cbn; lia|]. intros []; vm_compute; reflexivity.
  - exists [0; 2; 3; 4], [1; 2; 0; 0], [Some 1%Z; None; Some 2%Z], (Some <$> [1; 2; 3]%Z). split; [exact C3|]. split; [done|]. split; [done|]. intros []; vm_compute; reflexivity.
Qed.
Print Assumptions C68_order_refuted.
(** The graph is not checked: files that compute_contraction_hierarchy refuses lead to undefined behaviour. *)
Theorem C68_rejects_refuted : exists fo head, (forall asserts pad memory, compute_contraction_hierarchy asserts pad memory (id_file fo) (id_file head) (word_file [1%N]) = Some Throw) /\
  forall asserts, order_program asserts (id_file fo) (id_file head) (coordinate_file zn_encode (Some <$> [1; 2]%Z)) (coordinate_file zn_encode (Some <$> [1; 2]%Z)) = None.
Proof. exists [0; 1; 1], [2]. split; [intros; vm_compute; reflexivity|]. intros []; vm_compute; reflexivity. Qed.
Print Assumptions C68_rejects_refuted.

(** ** C69 *)
(** A customized metric can be used in queries. *)
Lemma customized_metric_ok order tail head c w m : cch_of order tail head c -> customized_for tail c w m -> metric_ok c m.
Proof.
  intros HC HM. destruct (C20_equations _ _ _ _ _ _ HC HM) as (rt & rh & _ & _ & [L1 L2 Hi _ _ _]). split; [done|]. split; [done|]. split; apply Forall_lookup_2; intros a x Hx.
  - by apply (Hi true a x).
  - by apply (Hi false a x).
Qed.
(** A new query object, one source, one target. *)
Definition one_query (m : metric) (s t : nat) : list op := [AddSource s 0%N; AddTarget t 0%N; RunQ m].
Lemma one_query_history n c m s t : s < n -> t < n -> metric_ok c m -> history n c (GInit [] []) (one_query m s t) (GRun m [(s, 0%N)] [(t, 0%N)]).
Proof.
  intros Hs Ht Hm. assert ((0 <= inf_weight)%N) by (unfold inf_weight; lia).
  eapply hi_cons; [by constructor|]. eapply hi_cons; [by constructor|]. eapply hi_cons; [by constructor|]. constructor.
Qed.

(** Any order that is stored in a file, in particular the one of C68, can be loaded and gives a CCH, with any of the constructors; every vector of
    weights can be customized, every query gives the distance and a shortest path. *)
Theorem C69_order_file : forall asserts log filter order tail head w, perm order -> fits32 (length order) -> filter || log = true -> (log = true -> length order <> 0) ->
  length tail = length head -> Forall (fun x => x < length order) tail -> Forall (fun x => x < length order) head -> weights_for tail w ->
  exists c m, load_ids (id_file order) = Some (Ret order) /\ build_cch asserts log filter order tail head = Some c /\ customize c w (new_metric c) = Some m /\
    forall s t, s < length order -> t < length order ->
    exists q x, exec_all c (one_query m s t) (new_query c) = Some q /\ q_get_distance q = Some x /\ is_distance tail head w s t x /\
      ((x < inf_weight)%N -> exists p us, q_arc_path c m w q = Some p /\ awalk tail head s p t /\ x = total w p /\
         mapM (fun e => tail !! e) p = Some us /\ q_node_path c m q = Some (us ++ [t])).
Proof.
  intros asserts log filter order tail head w Hp Hf Hfl Hlog Hl Ht Hh Hw.
  assert (graph_input order tail head) as Hin by done.
  destruct (proj2 (C44_constructor asserts log filter order tail head Hin)) as [c Ec]; [done|].
  assert (cch_of order tail head c) as HC by (split; [done|]; by exists asserts, log, filter).
  destruct (C20_customize order tail head c w (new_metric c) HC Hw) as (m & Em & _); [apply replicate_length..|].
  assert (customized_for tail c w m) as HM.
  { split; [done|]. exists (new_metric c). split; [apply replicate_length|]. split; [apply replicate_length|done]. }
  pose proof (customized_metric_ok _ _ _ _ _ _ HC HM) as Hm.
  exists c, m. split; [|split; [done|split; [done|]]].
  { apply load_id_file. apply Forall_lookup_2. intros i x Hx. pose proof (perm_lookup_lt _ _ _ Hp Hx). unfold fits32 in *. lia. }
  intros s t Hs Htt. pose proof (one_query_history _ c m s t Hs Htt Hm) as Hh'.
  destruct (C22_query _ _ _ _ _ _ _ _ _ HC HM Hh') as (q & x & E & Hx & Hr & _).
  destruct (C23_path _ _ _ _ _ _ _ _ _ HC HM Hh') as (q' & x' & E' & Hx' & _ & Hpath). rewrite E in E'. injection E' as <-. rewrite Hx in Hx'. injection Hx' as <-.
  exists q, x. split; [done|]. split; [done|]. split; [apply route_distance; [apply Hw|done]|].
  intros Hlt. destruct Hpath as (s' & ds & t' & dt & p & us & _ & _ & H1 & H2 & Ep & Hwalk & Ex & Hus & En); [lia|].
  apply elem_of_list_singleton in H1. apply elem_of_list_singleton in H2. simplify_eq. exists p, us. split; [done|]. split; [done|]. split; [lia|]. done.
Qed.
Print Assumptions C69_order_file.

(** From the files of a graph with coordinates to distances. *)
Theorem C69_distances : forall asserts log filter F (fplus fminus : F -> F -> F) flt nth_element garbage encode value ok fo tail head w latitude longitude,
  nth_element_ok nth_element -> (forall part b, garbage_ok part (garbage part b)) -> comparable fplus fminus flt latitude longitude ->
  image 4 encode value ok -> Forall ok latitude -> Forall ok longitude ->
  stored_graph fo tail head w -> Forall (fun x => (x <= inf_weight)%N) w ->
  0 < length fo - 1 <= length latitude -> length fo - 1 <= length longitude -> filter || log = true ->
  exists file order c m,
    compute_nested_dissection_order asserts fplus fminus flt nth_element garbage value (id_file fo) (id_file head) (coordinate_file encode latitude) (coordinate_file encode longitude) = Some (Ret file) /\
    load_ids file = Some (Ret order) /\ build_cch asserts log filter order tail head = Some c /\ customize c w (new_metric c) = Some m /\
    forall s t, s < length fo - 1 -> t < length fo - 1 ->
    exists q x, exec_all c (one_query m s t) (new_query c) = Some q /\ q_get_distance q = Some x /\ is_distance tail head w s t x /\
      ((x < inf_weight)%N -> exists p us, q_arc_path c m w q = Some p /\ awalk tail head s p t /\ x = total w p /\
         mapM (fun e => tail !! e) p = Some us /\ q_node_path c m q = Some (us ++ [t])).
Proof.
  intros asserts log filter F fplus fminus flt nth_element garbage encode value ok fo tail head w latitude longitude Hnth Hg Hc Hi H1 H2 [Hcsr Ht Hw Hn Hm _] Hwi Hlat Hlon Hfl.
  destruct (C68_order_partial asserts F fplus fminus flt nth_element garbage encode value ok fo tail head latitude longitude Hnth Hg Hc Hi H1 H2 Hcsr Ht Hn Hm Hlat Hlon) as (order & E & Hp & Hl & _).
  destruct (C69_order_file asserts log filter order tail head w Hp) as (c & m & E1 & E2 & E3 & H); rewrite ?Hl; [unfold fits32 in *; lia|done|lia|apply Ht|by eapply csr_tails_lt|by apply Forall_forall, Hcsr| |].
  { split; [|done]. rewrite Hw. symmetry. apply Ht. }
  exists (id_file order), order, c, m. split; [done|]. split; [done|]. split; [done|]. split; [done|]. rewrite Hl in H. exact H.
Qed.
Print Assumptions C69_distances.
(** These are the distances that run_dijkstra writes. *)
Theorem C69_agree : forall asserts log filter order fo tail head w source target c m, perm order -> length order = length fo - 1 ->
  build_cch asserts log filter order tail head = Some c -> customize c w (new_metric c) = Some m ->
  stored_graph fo tail head w -> head <> [] -> Forall (fun x => (x <= inf_weight)%N) w -> stored_queries (length fo - 1) source target ->
  (forall s, s ∈ source -> distances_below tail head w s) ->
  exists dist, run_dijkstra (id_file fo) (id_file head) (word_file w) (id_file source) (id_file target) = Some (Ret (word_file dist)) /\ length dist = length source /\
    forall i s t x, source !! i = Some s -> target !! i = Some t -> dist !! i = Some x ->
      exists q, exec_all c (one_query m s t) (new_query c) = Some q /\ q_get_distance q = Some x.
Proof.
  intros asserts log filter order fo tail head w source target c m Hp Hl Ec Em Hg Hne Hwi Hq Hb.
  destruct (C58_dijkstra_partial fo tail head w source target Hg Hne Hq Hb) as (dist & E & Hlen & Hd). exists dist. split; [done|]. split; [done|].
  destruct Hg as [Hcsr Ht Hw Hn Hm _]. intros i s t x Hi Hj Hx. specialize (Hd _ _ _ _ Hi Hj Hx).
  assert (graph_input order tail head) as Hin. { split; [done|]. split; [apply Ht|]. rewrite Hl. split; [by eapply csr_tails_lt|]. by apply Forall_forall, Hcsr. }
  assert (cch_of order tail head c) as HC by (split; [done|]; by exists asserts, log, filter).
  assert (weights_for tail w) as Hwf by (split; [rewrite Hw; symmetry; apply Ht|done]).
  assert (customized_for tail c w m) as HM.
  { split; [done|]. exists (new_metric c). split; [apply replicate_length|]. split; [apply replicate_length|done]. }
  destruct Hq as (_ & _ & Hs & Htt). pose proof (Forall_lookup_1 _ _ _ _ Hs Hi) as Hs'. pose proof (Forall_lookup_1 _ _ _ _ Htt Hj) as Ht'. cbn in Hs', Ht'. rewrite <- Hl in Hs', Ht'.
  pose proof (one_query_history _ c m s t Hs' Ht' (customized_metric_ok _ _ _ _ _ _ HC HM)) as Hh.
  destruct (C22_query _ _ _ _ _ _ _ _ _ HC HM Hh) as (q & y & Eq & Hy & Hr & _). exists q. split; [done|].
  rewrite Hy. f_equal. eapply distance_unique; [|exact Hd]. apply route_distance; [apply Hwf|done].
Qed.
Print Assumptions C69_agree.

Definition order_weights : list N := [3; 4; 3; 2; 2; 5; 1; 7; 1; 1; 7; 1]%N.
Example C69_ex : stored_graph order_fo order_tail order_head order_weights /\ Forall (fun x => (x <= inf_weight)%N) order_weights /\
  exists c m q, build_cch true false true [1; 0; 5; 4; 3; 2] order_tail order_head = Some c /\ customize c order_weights (new_metric c) = Some m /\
    exec_all c (one_query m 0 5) (new_query c) = Some q /\ q_get_distance q = Some 11%N /\ q_node_path c m q = Some [0; 2; 3; 4; 5].
Proof.
  split.
  - destruct order_csr as [H1 H2]. split; [done|done|done|vm_compute; reflexivity|vm_compute; reflexivity|]. repeat (constructor; [done|]). constructor.
  - split; [repeat (constructor; [unfold inf_weight; lia|]); constructor|]. eexists _, _, _. split; [vm_compute; reflexivity|]. split; [vm_compute; reflexivity|].
    split; [vm_compute; reflexivity|]. split; vm_compute; reflexivity.
Qed.
