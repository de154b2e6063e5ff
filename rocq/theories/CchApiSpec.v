(** The interface of the CCH query objects: calls, the order in which they may be made,
    and what has been asked for at every point. *)
From Verif Require Import Base UtilSpec GraphSpec PathSpec WalkSpec IdSetModel CchModel CchBuildModel.
Ltac Zify.zify_post_hook ::= idtac.

(** ** Calls *)
(** The public functions of CustomizableContractionHierarchyQuery that change the object
    (include/routingkit/customizable_contraction_hierarchy.h:125-175,
    src/customizable_contraction_hierarchy.cpp:1149-1904). *)
Inductive op :=
  | AddSource (s : nat) (d : N) | AddTarget (t : nat) (d : N) | RunQ (m : metric)
  | PinTargets (l : list nat) | PinSources (l : list nat)
  | RunToTargets (m : metric) | RunToSources (m : metric)
  | ResetSource | ResetTarget | Reset.
Definition exec (c : cch) (o : op) (q : query) : option query :=
  match o with
  | AddSource s d => q_add_source c q s d
  | AddTarget t d => q_add_target c q t d
  | RunQ m => q_run c m q
  | PinTargets l => q_pin_targets c q l
  | PinSources l => q_pin_sources c q l
  | RunToTargets m => q_run_to_pinned_targets c m q
  | RunToSources m => q_run_to_pinned_sources c m q
  | ResetSource => q_reset_source c q
  | ResetTarget => q_reset_target c q
  | Reset => q_reset c q
  end.
Definition exec_all (c : cch) (ops : list op) (q : query) : option query := for_each ops (exec c) q.

(** ** What has been asked for *)
(** Sources and targets with their distances; [d]: the targets are pinned and [ss] are the
    sources, otherwise the sources are pinned and [ss] are the targets. *)
Inductive asked :=
  | GInit (ss ts : list (nat * N))
  | GRun (m : metric) (ss ts : list (nat * N))
  | GPin (d : bool) (pins : list nat) (ss : list (nat * N))
  | GPinRun (d : bool) (pins : list nat) (m : metric) (ss : list (nat * N)).

Definition metric_ok (c : cch) (m : metric) : Prop :=
  length (m_fwd m) = length (up_head c) /\ length (m_bwd m) = length (up_head c) /\
  Forall (fun x => (x <= inf_weight)%N) (m_fwd m) /\ Forall (fun x => (x <= inf_weight)%N) (m_bwd m).

(** The calls that are allowed: node ids below [n], distances at most inf_weight; no targets may
    have been added when targets are pinned (and the same for sources). *)
Inductive allowed (n : nat) (c : cch) : asked -> op -> asked -> Prop :=
  | al_source ss ts s d : s < n -> (d <= inf_weight)%N -> allowed n c (GInit ss ts) (AddSource s d) (GInit ((s, d) :: ss) ts)
  | al_target ss ts t d : t < n -> (d <= inf_weight)%N -> allowed n c (GInit ss ts) (AddTarget t d) (GInit ss ((t, d) :: ts))
  | al_run ss ts m : metric_ok c m -> allowed n c (GInit ss ts) (RunQ m) (GRun m ss ts)
  | al_pin_targets ss l : Forall (fun t => t < n) l -> allowed n c (GInit ss []) (PinTargets l) (GPin true l ss)
  | al_pin_sources ts l : Forall (fun t => t < n) l -> allowed n c (GInit [] ts) (PinSources l) (GPin false l ts)
  | al_pin_source l ss s d : s < n -> (d <= inf_weight)%N -> allowed n c (GPin true l ss) (AddSource s d) (GPin true l ((s, d) :: ss))
  | al_pin_target l ts t d : t < n -> (d <= inf_weight)%N -> allowed n c (GPin false l ts) (AddTarget t d) (GPin false l ((t, d) :: ts))
  | al_to_targets l ss m : metric_ok c m -> allowed n c (GPin true l ss) (RunToTargets m) (GPinRun true l m ss)
  | al_to_sources l ts m : metric_ok c m -> allowed n c (GPin false l ts) (RunToSources m) (GPinRun false l m ts)
  | al_reset_source l ss : allowed n c (GPin true l ss) ResetSource (GPin true l [])
  | al_reset_source' l m ss : allowed n c (GPinRun true l m ss) ResetSource (GPin true l [])
  | al_reset_target l ts : allowed n c (GPin false l ts) ResetTarget (GPin false l [])
  | al_reset_target' l m ts : allowed n c (GPinRun false l m ts) ResetTarget (GPin false l [])
  | al_reset G : allowed n c G Reset (GInit [] []).

Inductive history (n : nat) (c : cch) : asked -> list op -> asked -> Prop :=
  | hi_nil G : history n c G [] G
  | hi_cons G o G' ops G'' : allowed n c G o G' -> history n c G' ops G'' -> history n c G (o :: ops) G''.

(** ** What can be asked *)
Record answers := mkAnswers {
  an_distance : option N; an_source : option (option nat); an_target : option (option nat);
  an_nodes : metric -> option (list nat); an_arcs : metric -> list N -> option (list nat);
  an_to_targets : option (list N); an_to_sources : option (list N) }.
(** :1281-1537, 1699-1725 *)
Definition observe (c : cch) (q : query) : answers :=
  mkAnswers (q_get_distance q) (q_used_source c q) (q_used_target c q)
    (fun m => q_node_path c m q) (fun m w => q_arc_path c m w q)
    (q_distances_to_targets q) (q_distances_to_sources q).
(** Equal answers, whatever metric and weights are used for unpacking. *)
Definition same_answers (a b : answers) : Prop :=
  an_distance a = an_distance b /\ an_source a = an_source b /\ an_target a = an_target b /\
  (forall m, an_nodes a m = an_nodes b m) /\ (forall m w, an_arcs a m w = an_arcs b m w) /\
  an_to_targets a = an_to_targets b /\ an_to_sources a = an_to_sources b.

(** ** Inputs *)
(** [order] is a node order and [tail], [head] are the arcs of a graph on its nodes. *)
Definition graph_input (order tail head : list nat) : Prop :=
  perm order /\ length tail = length head /\
  Forall (fun x => x < length order) tail /\ Forall (fun x => x < length order) head.
(** [c] is what one of the constructors makes of them. *)
Definition cch_of (order tail head : list nat) (c : cch) : Prop :=
  graph_input order tail head /\ exists asserts log filter, build_cch asserts log filter order tail head = Some c.
Definition weights_for (tail : list nat) (w : list N) : Prop :=
  length w = length tail /\ Forall (fun x => (x <= inf_weight)%N) w.
(** [m] is what customize() makes of any metric object of the right size. *)
Definition customized_for (tail : list nat) (c : cch) (w : list N) (m : metric) : Prop :=
  weights_for tail w /\ exists m0, length (m_fwd m0) = length (up_head c) /\ length (m_bwd m0) = length (up_head c) /\ customize c w m0 = Some m.

(** ** Node ids and ranks *)
Definition rk (c : cch) (s : nat) : nat := default 0 (c_rank c !! s).
Definition rks (c : cch) (ss : list (nat * N)) : list (nat * N) := (fun sd => (rk c (fst sd), snd sd)) <$> ss.
(** An input arc between nodes of rank [x] and [y]; the same without direction. *)
Definition rarc (c : cch) (tail head : list nat) (x y : nat) : Prop :=
  exists e u v, tail !! e = Some u /\ head !! e = Some v /\ c_rank c !! u = Some x /\ c_rank c !! v = Some y.
Definition rlink (c : cch) (tail head : list nat) (x y : nat) : Prop := x <> y /\ (rarc c tail head x y \/ rarc c tail head y x).
(** A path of links through nodes below [b]. *)
Definition low_path (E : nat -> nat -> Prop) (b x y : nat) : Prop :=
  exists k, gw (fun u v w => w = 0%N /\ E u v) (fun z => z < b) x y 0 k.

(** ** Partial customization *)
(** update_arc for all [es], then customize with the weights [w] (:967-1035). *)
Definition update_round (asserts : bool) (c : cch) (r : list nat * list N) (s : idset * metric) : option (idset * metric) :=
  q ← for_each (fst r) (fun e q => update_arc c q e) (fst s);
  partial_loop asserts c (snd r) (length (up_head c)) q (snd s).
(** The weights change at most at the reported arcs. *)
Definition changed_at (es : list nat) (w w' : list N) : Prop := forall e, e ∉ es -> w !! e = w' !! e.
Inductive rounds_ok (tail : list nat) : list N -> list (list nat * list N) -> list N -> Prop :=
  | ro_nil w : rounds_ok tail w [] w
  | ro_cons w es w' rs w'' : Forall (fun e => e < length tail) es -> weights_for tail w' -> changed_at es w w' ->
      rounds_ok tail w' rs w'' -> rounds_ok tail w ((es, w') :: rs) w''.
