(** Specification vocabulary: weighted walks in an arbitrary weighted directed graph
    [E u v w] (an arc from [u] to [v] of weight [w]), with a condition on the inner nodes.
    Used for hierarchies, whose nodes are numbered by importance. *)
From Verif Require Import Base.
Ltac Zify.zify_post_hook ::= idtac.

Definition warcs := nat -> nat -> N -> Prop.

(** A walk with [k >= 1] arcs and length [L] from [u] to [v], every inner node of which
    satisfies [P]. *)
Inductive gw (E : warcs) (P : nat -> Prop) : nat -> nat -> N -> nat -> Prop :=
  | gw_arc u v w : E u v w -> gw E P u v w 1
  | gw_step u x v w L k : E u x w -> P x -> gw E P x v L k -> gw E P u v (w + L)%N (S k).

(** The same without the number of arcs, and allowing the empty walk. *)
Definition lw (E : warcs) (P : nat -> Prop) (u v : nat) (L : N) : Prop := exists k, gw E P u v L k.
Definition dist_walk (E : warcs) (u v : nat) (L : N) : Prop :=
  (u = v /\ L = 0%N) \/ lw E (fun _ => True) u v L.
(** Inner nodes below both end points. *)
Definition below (u v x : nat) : Prop := x < u /\ x < v.

(** A path going up only. *)
Inductive upstar (A : warcs) : nat -> nat -> N -> Prop :=
  | up_refl u : upstar A u u 0
  | up_snoc u x v L w : upstar A u x L -> A x v w -> upstar A u v (L + w)%N.

Definition rev_arcs (E : warcs) : warcs := fun u v w => E v u w.

(** ** Facts *)
Lemma gw_pos E P u v L k : gw E P u v L k -> 1 <= k.
Proof. destruct 1; lia. Qed.
Lemma gw_mono E (P Q : nat -> Prop) u v L k : (forall x, P x -> Q x) -> gw E P u v L k -> gw E Q u v L k.
Proof. intros H. induction 1; [by constructor|econstructor; eauto]. Qed.
Lemma gw_sub (E F : warcs) P u v L k : (forall u v w, E u v w -> F u v w) -> gw E P u v L k -> gw F P u v L k.
Proof. intros H. induction 1; [constructor; eauto|econstructor; eauto]. Qed.
Lemma gw_app E P u x v L M k l :
  gw E P u x L k -> P x -> gw E P x v M l -> gw E P u v (L + M)%N (k + l).
Proof.
  induction 1 as [u x w Hw|u y x w L k Hw Hy _ IH]; intros Hx H.
  - by econstructor.
  - rewrite <- N.add_assoc. cbn [plus]. econstructor; eauto.
Qed.
Lemma gw_snoc E P u x v L w k :
  gw E P u x L k -> P x -> E x v w -> gw E P u v (L + w)%N (k + 1).
Proof. intros. eapply gw_app; eauto. by constructor. Qed.
Lemma gw_rev E P u v L k : gw E P u v L k -> gw (rev_arcs E) P v u L k.
Proof.
  induction 1 as [|u x v w L k Hw Hx _ IH]; [by constructor|].
  rewrite N.add_comm. replace (S k) with (k + 1) by lia. by eapply gw_snoc.
Qed.
Lemma gw_rev' E P u v L k : gw (rev_arcs E) P v u L k -> gw E P u v L k.
Proof. intros H%gw_rev. eapply gw_sub; [|exact H]. done. Qed.
(** an invariant closed under arcs holds at the inner nodes and the end *)
Lemma gw_ends (E : warcs) P (R : nat -> Prop) u v L k :
  (forall x y w, E x y w -> R x /\ R y) -> gw E P u v L k -> R u /\ R v.
Proof. intros HR. induction 1; naive_solver. Qed.
Lemma gw_inner_R (E : warcs) P (R : nat -> Prop) u v L k :
  (forall x y w, E x y w -> R x /\ R y) -> gw E P u v L k -> gw E (fun x => P x /\ R x) u v L k.
Proof. intros HR. induction 1; [by constructor|econstructor; naive_solver]. Qed.

(** Splitting a walk at its highest inner node. *)
Lemma gw_split E P u v L k :
  gw E P u v L k ->
  (E u v L /\ k = 1) \/
  exists z L1 L2 k1 k2, P z /\ gw E (fun x => P x /\ x < z) u z L1 k1 /\ gw E (fun x => P x /\ x < z) z v L2 k2 /\
    (L1 + L2 <= L)%N /\ k1 + k2 <= k.
Proof.
  induction 1 as [|u x v w L k Hw Hx H IH]; [by left|]. right.
  destruct IH as [[Hxv ->]|(z & L1 & L2 & k1 & k2 & Hz & H1 & H2 & HL & Hk)].
  - exists x, w, L, 1, 1. split; [done|]. split; [by constructor|]. split; [by constructor|]. split; [lia|done].
  - destruct (lt_eq_lt_dec x z) as [[Hlt| ->]|Hgt].
    + exists z, (w + L1)%N, L2, (S k1), k2. split; [done|]. split; [by econstructor|]. split; [done|]. split; lia.
    + exists z, w, L2, 1, k2. split; [done|]. split; [by constructor|]. split; [done|]. split; lia.
    + exists x, w, (L1 + L2)%N, 1, (k1 + k2). split; [done|]. split; [by constructor|]. split; [|split; lia].
      eapply gw_app; [eapply gw_mono; [|exact H1]|done|eapply gw_mono; [|exact H2]]; naive_solver lia.
Qed.

Lemma upstar_app A u x v L M : upstar A u x L -> upstar A x v M -> upstar A u v (L + M)%N.
Proof.
  intros H H2. induction H2; [by rewrite N.add_0_r|]. rewrite N.add_assoc. econstructor; eauto.
Qed.
Lemma upstar_le (A : warcs) u v L : (forall x y w, A x y w -> x < y) -> upstar A u v L -> u <= v.
Proof. intros HA. induction 1 as [|u x v L w _ IH Ha]; [done|]. specialize (HA _ _ _ Ha). lia. Qed.
Lemma upstar_mono (A B : warcs) u v L : (forall x y w, A x y w -> B x y w) -> upstar A u v L -> upstar B u v L.
Proof. intros H. induction 1; econstructor; eauto. Qed.

(** Climbing: if [A] has an arc at most as long for every low walk shorter than [bound],
    then a walk below its end can be replaced by upward arcs. *)
Lemma gw_climb (E A : warcs) (bound : N) :
  (forall u v L k, u < v -> gw E (fun x => x < u) u v L k -> (L < bound)%N -> exists w, (w <= L)%N /\ A u v w) ->
  forall k u v L, u <= v -> gw E (fun x => x < v) u v L k -> (L < bound)%N ->
    exists L', (L' <= L)%N /\ upstar A u v L'.
Proof.
  intros HA k. induction (lt_wf k) as [k _ IH]. intros u v L Huv H HL.
  destruct (decide (u = v)) as [<-|Hne].
  { exists 0%N. split; [lia|constructor]. }
  destruct (gw_split _ _ _ _ _ _ H) as [[He ->]|(z & L1 & L2 & k1 & k2 & Hz & H1 & H2 & Hle & Hk)].
  { destruct (HA u v L 1) as (w & Hw & Ha); [lia|by constructor|done|].
    exists (0 + w)%N. split; [lia|]. econstructor; [constructor|done]. }
  pose proof (gw_pos _ _ _ _ _ _ H1). pose proof (gw_pos _ _ _ _ _ _ H2).
  destruct (le_lt_dec u z) as [Huz|Hzu].
  - destruct (IH k1 ltac:(lia) u z L1) as (L1' & HL1 & Hup); [done| |lia|].
    { eapply gw_mono; [|exact H1]. naive_solver. }
    destruct (HA z v L2 k2) as (w & Hw & Ha); [done| |lia|].
    { eapply gw_mono; [|exact H2]. naive_solver. }
    exists (L1' + w)%N. split; [lia|]. econstructor; eauto.
  - destruct (HA u v (L1 + L2)%N (k1 + k2)) as (w & Hw & Ha); [lia| |lia|].
    { eapply gw_app; [eapply gw_mono; [|exact H1]|exact Hzu|eapply gw_mono; [|exact H2]]; cbn; intros; naive_solver lia. }
    exists (0 + w)%N. split; [lia|]. econstructor; [constructor|done].
Qed.

(** Every walk decomposes into a climb and a descent. *)
Lemma walk_apex E u v L :
  dist_walk E u v L ->
  exists z L1 L2, (L1 + L2 <= L)%N /\ u <= z /\ v <= z /\
    ((u = z /\ L1 = 0%N) \/ exists k, gw E (fun x => x < z) u z L1 k) /\
    ((v = z /\ L2 = 0%N) \/ exists k, gw E (fun x => x < z) z v L2 k).
Proof.
  intros [[-> ->]|(k & H)].
  { exists v, 0%N, 0%N. split; [lia|]. split; [done|]. split; [done|]. split; by left. }
  destruct (gw_split _ _ _ _ _ _ H) as [[He ->]|(z & L1 & L2 & k1 & k2 & _ & H1 & H2 & Hle & Hk)].
  - destruct (le_lt_dec u v).
    + exists v, L, 0%N. split; [lia|]. split; [done|]. split; [done|]. split; [right|by left]. exists 1. by constructor.
    + exists u, 0%N, L. split; [lia|]. split; [done|]. split; [lia|]. split; [by left|right]. exists 1. by constructor.
  - assert (forall u v L k, gw E (fun x => True /\ x < z) u v L k -> gw E (fun x => x < z) u v L k) as Hm.
    { intros. eapply gw_mono; [|done]. naive_solver. }
    apply Hm in H1, H2.
    destruct (le_lt_dec z (u `max` v)) as [Hz|Hz].
    + destruct (le_lt_dec u v).
      * destruct (decide (z = v)) as [->|].
        { exists v, L1, 0%N. split; [lia|]. split; [done|]. split; [done|]. split; [right; eauto|by left]. }
        exists v, (L1 + L2)%N, 0%N. split; [lia|]. split; [done|]. split; [done|]. split; [|by left]. right.
        exists (k1 + k2). eapply gw_app; [eapply gw_mono; [|exact H1]| |eapply gw_mono; [|exact H2]]; cbn; lia.
      * destruct (decide (z = u)) as [->|].
        { exists u, 0%N, L2. split; [lia|]. split; [done|]. split; [lia|]. split; [by left|right; eauto]. }
        exists u, 0%N, (L1 + L2)%N. split; [lia|]. split; [done|]. split; [lia|]. split; [by left|]. right.
        exists (k1 + k2). eapply gw_app; [eapply gw_mono; [|exact H1]| |eapply gw_mono; [|exact H2]]; cbn; lia.
    + exists z, L1, L2. split; [lia|]. split; [lia|]. split; [lia|]. split; right; eauto.
Qed.

(** ** Walks as lists of arcs *)
(** [p] lists the arcs of a walk from [u] to [v] in a graph given by tails and heads. *)
Inductive awalk (tail head : list nat) : nat -> list nat -> nat -> Prop :=
  | awalk_nil u : awalk tail head u [] u
  | awalk_cons u e x p v : tail !! e = Some u -> head !! e = Some x -> awalk tail head x p v ->
      awalk tail head u (e :: p) v.
(** The inner nodes: heads of all arcs but the last. *)
Definition inner_nodes (head : list nat) (p : list nat) : list nat := omap (head !!.) (removelast p).
Definition total (w : list N) (p : list nat) : N := foldr (fun e s => default 0%N (w !! e) + s)%N 0%N p.

(** The arcs of such a graph. *)
Definition arcs_of (tail head : list nat) (w : list N) : warcs :=
  fun u v x => exists e, tail !! e = Some u /\ head !! e = Some v /\ w !! e = Some x.

Lemma awalk_app t h u p q v : awalk t h u (p ++ q) v <-> exists x, awalk t h u p x /\ awalk t h x q v.
Proof.
  split.
  - revert u. induction p as [|e p IH]; intros u H; [exists u; split; [constructor|done]|].
    inversion H as [|? ? y ? ? He Hy Hw]; simplify_eq. destruct (IH _ Hw) as (x & ? & ?). exists x. split; [by econstructor|done].
  - intros (x & H & H2). induction H; [done|]. econstructor; eauto.
Qed.
Lemma total_app w p q : total w (p ++ q) = (total w p + total w q)%N.
Proof. unfold total. induction p as [|e p IH]; [done|]. cbn. rewrite IH. lia. Qed.
Lemma awalk_valid t h u p v e : awalk t h u p v -> e ∈ p -> e < length t.
Proof. induction 1; [by intros ?%elem_of_nil|]. intros [->|]%elem_of_cons; [by eapply lookup_lt_Some|eauto]. Qed.

(** Walks as lists and walks in [arcs_of] are the same. *)
Lemma gw_awalk t h w P u v L k :
  gw (arcs_of t h w) P u v L k ->
  exists p, length p = k /\ awalk t h u p v /\ total w p = L /\ Forall P (inner_nodes h p).
Proof.
  induction 1 as [u v x (e & Ht & Hh & Hw)|u x v y L k (e & Ht & Hh & Hw) Hx _ (p & Hk & Hp & HL & Hin)].
  - exists [e]. split; [done|]. split; [econstructor; [done..|constructor]|]. split; [|constructor].
    unfold total. cbn. rewrite Hw. cbn. lia.
  - exists (e :: p). split; [cbn; lia|]. split; [by econstructor|]. split.
    { change (total w (e :: p)) with (default 0%N (w !! e) + total w p)%N. by rewrite Hw, HL. }
    unfold inner_nodes in *. destruct p as [|e' p]; [constructor|].
    change (removelast (e :: e' :: p)) with (e :: removelast (e' :: p)). cbn [omap list_omap].
    rewrite Hh. constructor; done.
Qed.
Lemma awalk_gw t h w (P : nat -> Prop) u v p :
  length w = length t -> p <> [] -> awalk t h u p v -> Forall P (inner_nodes h p) ->
  gw (arcs_of t h w) P u v (total w p) (length p).
Proof.
  intros Hlen Hne H. induction H as [|u e x p v Ht Hh H IH]; [done|]. intros Hin.
  destruct (lookup_lt_is_Some_2 w e) as [y Hy]; [rewrite Hlen; by eapply lookup_lt_Some|].
  assert (arcs_of t h w u x y) as Ha by (by exists e).
  change (total w (e :: p)) with (default 0%N (w !! e) + total w p)%N. rewrite Hy. cbn [default].
  destruct p as [|e' p].
  - inversion H; simplify_eq. change (total w []) with 0%N. rewrite N.add_0_r. by constructor.
  - unfold inner_nodes in *. change (removelast (e :: e' :: p)) with (e :: removelast (e' :: p)) in Hin.
    cbn [omap list_omap] in Hin. rewrite Hh in Hin. apply Forall_cons in Hin as [Hx Hin].
    cbn [length]. econstructor; [done..|]. by apply IH.
Qed.

(** [best] is the smallest sum of a source distance, a walk and a target distance, capped. *)
Definition best_route (E : warcs) (ss tt : list (nat * N)) (best : N) : Prop :=
  (best <= inf_weight)%N /\
  (forall s ds t dt L, (s, ds) ∈ ss -> (t, dt) ∈ tt -> dist_walk E s t L -> (best <= ds + L + dt)%N) /\
  (best = inf_weight \/ exists s ds t dt L, (s, ds) ∈ ss /\ (t, dt) ∈ tt /\ dist_walk E s t L /\ best = (ds + L + dt)%N).

(** [x] is the smallest number satisfying [P], capped at inf_weight. *)
Definition shortest_capped (P : N -> Prop) (x : N) : Prop :=
  (x <= inf_weight)%N /\ (forall L, P L -> (x <= L)%N) /\ (x = inf_weight \/ P x).
