(** The interface of ContractionHierarchyQuery: calls, the order in which they may be made, and what
    has been asked for at every point. *)
From Verif Require Import Base UtilSpec GraphSpec CchModel CchBuildModel CchPerfectModel ChCleanSpec ChBuildModel ChWrapModel ChQueryModel ChExtraModel ChSpec WalkSpec.
Ltac Zify.zify_post_hook ::= idtac.

(** ** Calls *)
(** The public functions that change the object (include/routingkit/contraction_hierarchy.h:109-160,
    src/contraction_hierarchy.cpp:1438-2082). [KExtra] is get_extra_weight_distances_to_targets or, if
    [d] is false, get_extra_weight_distances_to_sources (include/routingkit/contraction_hierarchy.h:665-738),
    for any type of extra weights. *)
Inductive chop :=
  | KSource (s : nat) (d : N) | KTarget (t : nat) (d : N) | KRun
  | KPinTargets (l : list nat) | KPinSources (l : list nat) | KRunToTargets | KRunToSources
  | KResetSource | KResetTarget | KReset | KResetCh (c : ch)
  | KExtra (W : Type) (dflt : W) (link : W -> W -> W) (d : bool) (e : extra W) (tmp dist : list W).
Definition kexec (o : chop) (q : cquery) : option cquery :=
  match o with
  | KSource s d => cq_add_source q s d
  | KTarget t d => cq_add_target q t d
  | KRun => cq_run q
  | KPinTargets l => cq_pin_targets q l
  | KPinSources l => cq_pin_sources q l
  | KRunToTargets => cq_run_to_targets q
  | KRunToSources => cq_run_to_sources q
  | KResetSource => cq_reset_source q
  | KResetTarget => cq_reset_target q
  | KReset => cq_reset q
  | KResetCh c => cq_reset_ch q c
  | KExtra _ dflt link d e tmp dist =>
      r ← (if d then cq_extra_to_targets dflt link else cq_extra_to_sources dflt link) q e tmp dist; Some (fst (fst r))
  end.
Definition kexec_all (ops : list chop) (q : cquery) : option cquery := for_each ops kexec q.

(** ** What has been asked for *)
(** [d]: the targets are pinned and [ss] are the sources, otherwise the sources are pinned and [ss]
    are the targets. *)
Inductive kasked :=
  | KInit (ss ts : list (nat * N))
  | KDone (ss ts : list (nat * N))
  | KPin (d : bool) (pins : list nat) (ss : list (nat * N))
  | KPinDone (d : bool) (pins : list nat) (ss : list (nat * N)).

(** The extra weights have an entry for every input arc that is in use, or for every arc. *)
Definition extra_fits {W} (c : ch) (e : extra W) : Prop :=
  match e with
  | XInput l => forall sd a i, sd = ch_fwd c \/ sd = ch_bwd c -> cs_orig sd !! a = Some true -> cs_first sd !! a = Some i -> i < length l
  | XArcs f b => length f = length (cs_head (ch_fwd c)) /\ length b = length (cs_head (ch_bwd c))
  end.

(** The calls that are allowed for a hierarchy with [n] nodes, if the object may be moved to the
    hierarchies [H]. Distances are at most inf_weight. A run needs sources and targets. At most [n]
    nodes can be pinned, and only if none have been added. The temporary container has an entry for every
    node and the container of results one for every pinned node. *)
Inductive kallowed (H : ch -> Prop) : ch * kasked -> chop -> ch * kasked -> Prop :=
  | ka_source c ss ts s d : s < ch_nodes c -> (d <= inf_weight)%N -> kallowed H (c, KInit ss ts) (KSource s d) (c, KInit ((s, d) :: ss) ts)
  | ka_target c ss ts t d : t < ch_nodes c -> (d <= inf_weight)%N -> kallowed H (c, KInit ss ts) (KTarget t d) (c, KInit ss ((t, d) :: ts))
  | ka_run c ss ts : ss <> [] -> ts <> [] -> kallowed H (c, KInit ss ts) KRun (c, KDone ss ts)
  | ka_pin_targets c ss l : Forall (fun t => t < ch_nodes c) l -> length l <= ch_nodes c ->
      kallowed H (c, KInit ss []) (KPinTargets l) (c, KPin true l ss)
  | ka_pin_sources c ts l : Forall (fun t => t < ch_nodes c) l -> length l <= ch_nodes c ->
      kallowed H (c, KInit [] ts) (KPinSources l) (c, KPin false l ts)
  | ka_pin_source c l ss s d : s < ch_nodes c -> (d <= inf_weight)%N -> kallowed H (c, KPin true l ss) (KSource s d) (c, KPin true l ((s, d) :: ss))
  | ka_pin_target c l ts t d : t < ch_nodes c -> (d <= inf_weight)%N -> kallowed H (c, KPin false l ts) (KTarget t d) (c, KPin false l ((t, d) :: ts))
  | ka_to_targets c l ss : ss <> [] -> kallowed H (c, KPin true l ss) KRunToTargets (c, KPinDone true l ss)
  | ka_to_sources c l ts : ts <> [] -> kallowed H (c, KPin false l ts) KRunToSources (c, KPinDone false l ts)
  | ka_reset_source c l ss : kallowed H (c, KPin true l ss) KResetSource (c, KPin true l [])
  | ka_reset_source' c l ss : kallowed H (c, KPinDone true l ss) KResetSource (c, KPin true l [])
  | ka_reset_target c l ts : kallowed H (c, KPin false l ts) KResetTarget (c, KPin false l [])
  | ka_reset_target' c l ts : kallowed H (c, KPinDone false l ts) KResetTarget (c, KPin false l [])
  | ka_reset c G : kallowed H (c, G) KReset (c, KInit [] [])
  | ka_reset_ch c c' G : H c' -> kallowed H (c, G) (KResetCh c') (c', KInit [] [])
  | ka_extra c d l ss W (dflt : W) link e tmp dist : extra_fits c e -> ch_nodes c <= length tmp -> length l <= length dist ->
      kallowed H (c, KPinDone d l ss) (KExtra W dflt link d e tmp dist) (c, KPinDone d l ss).

Inductive khistory (H : ch -> Prop) : ch * kasked -> list chop -> ch * kasked -> Prop :=
  | kh_nil G : khistory H G [] G
  | kh_cons G o G' ops G'' : kallowed H G o G' -> khistory H G' ops G'' -> khistory H G (o :: ops) G''.

(** ** Inputs *)
(** The functions of class ContractionHierarchy that make a hierarchy, with numbers of 32 bits. *)
Definition builds (red : N -> option N) (n : nat) (tail head : list nat) (w : list N) (c : ch) : Prop :=
  exists asserts max_pop,
    ch_build_u red asserts max_pop n tail head w = Some c \/
    (exists rank, perm rank /\ length rank = n /\ ch_build_given_rank_u red asserts max_pop rank tail head w = Some c) \/
    (exists order, perm order /\ length order = n /\ ch_build_given_order_u red asserts max_pop order tail head w = Some c).
(** The weights of the hierarchy are at most (2^32 - 1) / 12. *)
Definition small_weight : N := 357913941.
Definition small_ch (c : ch) : Prop :=
  Forall (fun x => (x <= small_weight)%N) (cs_weight (ch_fwd c)) /\ Forall (fun x => (x <= small_weight)%N) (cs_weight (ch_bwd c)).
(** These functions with unbounded numbers, perfect customization with a CCH that is not filtered, weights of at most inf_weight and any metric object of the right size,
    and the functions with numbers of 32 bits, when the weights that come out are small and those that go in at most twice as large. *)
Definition constructed (n : nat) (tail head : list nat) (w : list N) (c : ch) : Prop :=
  exists asserts max_pop,
    ch_build asserts max_pop n tail head w = Some c \/
    (exists rank, perm rank /\ length rank = n /\ ch_build_given_rank asserts max_pop rank tail head w = Some c) \/
    (exists order, perm order /\ length order = n /\ ch_build_given_order asserts max_pop order tail head w = Some c) \/
    (exists asserts' log order b m, perm order /\ length order = n /\ build_cch asserts' log false order tail head = Some b /\
       Forall (fun x => (x <= inf_weight)%N) w /\ length (m_fwd m) = length (up_head b) /\ length (m_bwd m) = length (up_head b) /\
       build_ch_perfect asserts b w m = Some (Some c)) \/
    (Forall (fun x => (x <= 2 * small_weight)%N) w /\ small_ch c /\ builds wrap32 n tail head w c).
(** All weights of a direction are at most inf_weight. *)
Definition weights_below (sd : chside) : Prop := Forall (fun x => (x <= inf_weight)%N) (cs_weight sd).
(** [c] was made from this graph. The weights of its arcs, which are lengths of walks, are at most
    inf_weight. *)
Definition ch_of (n : nat) (tail head : list nat) (w : list N) (c : ch) : Prop :=
  arc_list n tail head w /\ constructed n tail head w c /\ weights_below (ch_fwd c) /\ weights_below (ch_bwd c).
Definition any_ch (c : ch) : Prop := exists n tail head w, ch_of n tail head w c.
