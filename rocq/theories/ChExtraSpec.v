(** The extra weight of a path. *)
From Verif Require Import Base ChBuildModel ChExtraModel.

Section spec.
Context {W : Type} (dflt : W) (link : W -> W -> W).
(** The weights of the arcs linked from the first to the last; the default value for no arcs. *)
Definition link_all (ws : list W) : W := match ws with [] => dflt | w :: ws => foldl link w ws end.
(** [v] is the extra weight of the arcs [p] for the extra weights [l] of the input arcs. *)
Definition extra_along (l : list W) (p : list nat) (v : W) : Prop :=
  exists ws, mapM (fun e => l !! e) p = Some ws /\ v = link_all ws.
(** Linking is associative on the weights [P]. *)
Record linkable (P : W -> Prop) : Prop := {
  lk_closed : forall a b, P a -> P b -> P (link a b);
  lk_assoc : forall a b c, P a -> P b -> P c -> link a (link b c) = link (link a b) c }.
(** The parameter extra_weight that belongs to the weights [l] of the input arcs: these weights, or what
    ContractionHierarchyExtraWeight::reset makes of them for the hierarchy [c]. *)
Definition extra_for (c : ch) (l : list W) (e : extra W) : Prop :=
  e = XInput l \/ exists old f b, extra_reset dflt link c l old = Some (f, b) /\ e = XArcs f b.
End spec.
