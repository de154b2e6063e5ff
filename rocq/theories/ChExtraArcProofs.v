(** Extra weights of the arcs of a hierarchy. *)
From Verif Require Import Base UtilSpec GraphSpec ChCleanSpec ChBuildModel ChSpec ChQueryModel ChSearchProofs ChUnpackProofs ChExtraModel ChExtraSpec WalkSpec.
Ltac Zify.zify_post_hook ::= idtac.

(** ** Linking *)
Section link.
Context {W : Type} (dflt : W) (link : W -> W -> W) (P : W -> Prop).
Hypothesis HP : linkable link P.

Lemma foldl_closed v vs : P v -> Forall P vs -> P (foldl link v vs).
Proof.
  intros Hv Hvs. revert v Hv. induction Hvs as [|u vs Hu Hvs IH]; intros v Hv; [done|]. cbn. apply IH. by apply (lk_closed _ _ HP).
Qed.
Lemma foldl_link u v vs : P u -> P v -> Forall P vs -> foldl link (link u v) vs = link u (foldl link v vs).
Proof.
  intros Hu Hv Hvs. revert v Hv. induction Hvs as [|x vs Hx Hvs IH]; intros v Hv; [done|]. cbn.
  rewrite <- (lk_assoc _ _ HP) by done. rewrite IH; [done|]. by apply (lk_closed _ _ HP).
Qed.
Lemma link_all_closed vs : vs <> [] -> Forall P vs -> P (link_all dflt link vs).
Proof. destruct vs as [|v vs]; [done|]. intros _ H. apply Forall_cons in H as [Hv Hvs]. by apply foldl_closed. Qed.
Lemma link_all_app us vs : us <> [] -> vs <> [] -> Forall P us -> Forall P vs ->
  link_all dflt link (us ++ vs) = link (link_all dflt link us) (link_all dflt link vs).
Proof.
  intros Hu Hv HPu HPv. destruct us as [|u us]; [done|]. destruct vs as [|v vs]; [done|]. cbn.
  apply Forall_cons in HPu as [? ?]. apply Forall_cons in HPv as [? ?].
  rewrite foldl_app. cbn. apply foldl_link; [by apply foldl_closed|done|done].
Qed.
(** [v] is the value of the list of weights [ws]. *)
Definition vals (v : W) (ws : list W) : Prop := ws <> [] /\ Forall P ws /\ v = link_all dflt link ws.
Lemma vals_P v ws : vals v ws -> P v.
Proof. intros (H1 & H2 & ->). by apply link_all_closed. Qed.
Lemma vals_app u us v vs : vals u us -> vals v vs -> vals (link u v) (us ++ vs).
Proof.
  intros (H1 & H2 & ->) (H3 & H4 & ->). split; [by destruct us|]. split; [by apply Forall_app|]. by rewrite link_all_app.
Qed.
Lemma foldl_vals v vs ws wss : vals v ws -> Forall2 vals vs wss -> vals (foldl link v vs) (ws ++ concat wss).
Proof.
  intros Hv Hvs. revert v ws Hv. induction Hvs as [|u us vs wss Hu Hus IH]; intros v ws Hv; cbn.
  - by rewrite app_nil_r.
  - rewrite app_assoc. apply IH. by apply vals_app.
Qed.
Lemma foldl_inv_vals v vs ws wss : vals v ws -> Forall2 vals vs wss ->
  vals (foldl (fun r u => link u r) v vs) (concat (rev wss) ++ ws).
Proof.
  intros Hv Hvs. revert v ws Hv. induction Hvs as [|u us vs wss Hu Hus IH]; intros v ws Hv; cbn; [done|].
  rewrite concat_app, <- app_assoc. cbn. rewrite app_nil_r. apply IH. by apply vals_app.
Qed.
End link.

(** ** Unpacking *)
Lemma ch_unpack_mono c fuel : forall fuel' d a p, fuel <= fuel' -> ch_unpack c fuel d a = Some p -> ch_unpack c fuel' d a = Some p.
Proof.
  induction fuel as [|fuel IH]; intros fuel' d a p Hle; [done|]. destruct fuel' as [|fuel']; [lia|]. cbn [ch_unpack]. cbv zeta.
  destruct (cs_orig _ !! a) as [o|]; [|done]. rewrite !bind_S. destruct (cs_first _ !! a) as [x|]; [|done]. rewrite !bind_S.
  destruct (cs_second _ !! a) as [y|]; [|done]. rewrite !bind_S. destruct o; [done|].
  destruct (chk _) as [[]|]; [|done]. rewrite !bind_S. destruct (chk _) as [[]|]; [|done]. rewrite !bind_S.
  destruct (ch_unpack c fuel false x) as [p1|] eqn:E1; [|done]. rewrite bind_S. destruct (ch_unpack c fuel true y) as [p2|] eqn:E2; [|done].
  rewrite bind_S. intros [= <-]. rewrite (IH fuel' false x p1) by (done || lia). rewrite bind_S. rewrite (IH fuel' true y p2) by (done || lia). done.
Qed.

Lemma shortcut_parts n tail head w c d a x y v e e' : ch_ok n tail head w c -> sarc (csd c d) a x y v ->
  entry_ok tail head w (ch_order c) (ch_fwd c) (ch_bwd c) (if d then x else y) (if d then y else x) v false e e' ->
  exists z s t x1 x2, z < x /\ sarc (csd c false) e z s x1 /\ sarc (csd c true) e' z t x2.
Proof.
  intros H Ha (z & x1 & x2 & Hb & Hf & ->). exists z, (if d then x else y), (if d then y else x), x1, x2. split; [|done].
  pose proof (so_up _ _ (co_bwd _ _ _ _ _ H) _ _ _ _ Hb). pose proof (so_up _ _ (co_fwd _ _ _ _ _ H) _ _ _ _ Hf). destruct d; lia.
Qed.

Section arcs.
Context {W : Type} (dflt : W) (link : W -> W -> W) (P : W -> Prop).
Hypothesis HP : linkable link P.
Context (n : nat) (tail head : list nat) (w : list N) (c : ch) (l : list W).
Hypothesis H : ch_ok n tail head w c.
Hypothesis Hl : length l = length head.
Hypothesis HlP : Forall P l.

Lemma nodes_n : ch_nodes c = n.
Proof. by eapply rank_len. Qed.

(** [v] is the linked extra weight of the input arcs of arc [a] of direction [d]. *)
Definition arc_val (d : bool) (a : nat) (v : W) : Prop :=
  exists p ws, ch_unpack c n d a = Some p /\ mapM (fun e => l !! e) p.*1 = Some ws /\ vals dflt link P v ws.

Lemma arc_entry d a x y v : sarc (csd c d) a x y v -> exists o e e', side_entry (csd c d) a o e e' /\
  entry_ok tail head w (ch_order c) (ch_fwd c) (ch_bwd c) (if d then x else y) (if d then y else x) v o e e'.
Proof. intros Ha. destruct d; [by apply (co_fwd_entry _ _ _ _ _ H)|by apply (co_bwd_entry _ _ _ _ _ H)]. Qed.

Lemma arc_val_orig d a x y v e e' : sarc (csd c d) a x y v -> side_entry (csd c d) a true e e' ->
  entry_ok tail head w (ch_order c) (ch_fwd c) (ch_bwd c) (if d then x else y) (if d then y else x) v true e e' ->
  exists u, l !! e = Some u /\ arc_val d a u.
Proof.
  intros Ha (Ho & He & He') (s & t & _ & _ & (_ & Hhd & _) & _).
  destruct (lookup_lt_is_Some_2 l e) as [u Hu]; [rewrite Hl; by eapply lookup_lt_Some|]. exists u. split; [done|].
  destruct (sarc_lt _ _ _ _ _ _ (co_side _ _ _ _ _ H d) Ha) as [Hx _].
  exists [(e, e')], [u]. split; [|split].
  - destruct n as [|n']; [lia|]. cbn [ch_unpack]. change (if d then ch_fwd c else ch_bwd c) with (csd c d). cbv zeta.
    rewrite Ho, bind_S, He, bind_S, He', bind_S. done.
  - cbn. rewrite Hu. done.
  - split; [done|]. split; [|done]. constructor; [|constructor]. exact (Forall_lookup_1 _ _ _ _ HlP Hu).
Qed.
Lemma arc_val_shortcut d a x y v e e' v1 v2 : sarc (csd c d) a x y v -> side_entry (csd c d) a false e e' ->
  entry_ok tail head w (ch_order c) (ch_fwd c) (ch_bwd c) (if d then x else y) (if d then y else x) v false e e' ->
  arc_val false e v1 -> arc_val true e' v2 -> arc_val d a (link v1 v2).
Proof.
  intros Ha (Ho & He & He') Hent (p1 & w1 & U1 & M1 & V1) (p2 & w2 & U2 & M2 & V2).
  destruct (sarc_lt _ _ _ _ _ _ (co_side _ _ _ _ _ H d) Ha) as [Hx _].
  destruct (ch_unpack_ok n tail head w c H n d a x y v Hx Ha) as (p & _ & _ & U & _).
  assert (p = p1 ++ p2) as ->.
  { apply (ch_unpack_mono c n (S n)) in U; [|lia]. cbn [ch_unpack] in U. change (if d then ch_fwd c else ch_bwd c) with (csd c d) in U. cbv zeta in U.
    rewrite Ho, bind_S, He, bind_S, He', bind_S in U. destruct Hent as (z & x1 & x2 & (_ & Hb & _) & (_ & Hf & _) & _).
    rewrite (bool_decide_eq_true_2 (e < _)) in U by (by eapply lookup_lt_Some). rewrite (bool_decide_eq_true_2 (e' < _)) in U by (by eapply lookup_lt_Some).
    cbn [chk] in U. rewrite !bind_S, U1, bind_S, U2, bind_S in U. by injection U as <-. }
  exists (p1 ++ p2), (w1 ++ w2). split; [done|]. split; [|by apply vals_app].
  rewrite fmap_app. clear - M1 M2. revert w1 M1. induction p1.*1 as [|e es IH]; intros w1 M1; cbn in *; [injection M1 as <-; done|].
  destruct (l !! e); [|done]. cbn in *. destruct (mapM _ es) as [ws|]; [|done]. cbn in *. injection M1 as <-. rewrite (IH ws eq_refl). done.
Qed.

Lemma arc_extra_ok fuel : forall d a x y v, x < fuel -> sarc (csd c d) a x y v -> exists u, arc_extra link c l fuel d a = Some u /\ arc_val d a u.
Proof.
  induction fuel as [|fuel IH]; intros d a x y v Hx Ha; [lia|]. cbn [arc_extra]. change (if d then ch_fwd c else ch_bwd c) with (csd c d). cbv zeta.
  destruct (arc_entry d a x y v Ha) as (o & e & e' & Hse & Hent). pose proof Hse as (Ho & He & He'). rewrite Ho, bind_S, He, bind_S.
  destruct o; [by eapply arc_val_orig|]. rewrite He', bind_S.
  destruct (shortcut_parts n tail head w c d a x y v e e' H Ha Hent) as (z & s & t & x1 & x2 & Hz & Hb & Hf).
  destruct (IH false e z s x1) as (u1 & -> & V1); [lia|done|]. destruct (IH true e' z t x2) as (u2 & -> & V2); [lia|done|].
  rewrite !bind_S. eexists. split; [done|]. by eapply arc_val_shortcut.
Qed.

(** ** reset *)
Definition sel_of (d : bool) (fb : list W * list W) : list W := if d then fst fb else snd fb.
Definition done_arcs (R : bool -> nat -> nat -> Prop) (fb : list W * list W) : Prop :=
  (forall d, length (sel_of d fb) = length (cs_head (csd c d))) /\
  forall d a x y v, sarc (csd c d) a x y v -> R d x a -> exists u, sel_of d fb !! a = Some u /\ arc_val d a u.

Lemma reset_arc_ok (R R' : bool -> nat -> nat -> Prop) d xy x y v fb :
  sarc (csd c d) xy x y v -> done_arcs R fb ->
  (forall d' z a, z < x -> R d' z a) -> (forall d' z a, R' d' z a -> (d' = d /\ a = xy) \/ R d' z a) ->
  exists fb', reset_arc link c l d xy fb = Some fb' /\ done_arcs R' fb'.
Proof.
  intros Ha [Hlen HR] Hlow Hnew. destruct fb as [f b]. unfold reset_arc. change (if d then ch_fwd c else ch_bwd c) with (csd c d). cbv zeta.
  destruct (arc_entry d xy x y v Ha) as (o & e & e' & Hse & Hent). pose proof Hse as (Ho & He & He'). rewrite Ho, bind_S, He, bind_S.
  assert (exists u, (if o then l !! e else y ← cs_second (csd c d) !! xy; p ← b !! e; q ← f !! y; Some (link p q)) = Some u /\ arc_val d xy u) as (u & -> & Hu).
  { destruct o; [by eapply arc_val_orig|]. rewrite He', bind_S.
    destruct (shortcut_parts n tail head w c d xy x y v e e' H Ha Hent) as (z & s & t & x1 & x2 & Hz & Hb & Hf).
    destruct (HR _ _ _ _ _ Hb (Hlow _ _ _ Hz)) as (u1 & E1 & V1). destruct (HR _ _ _ _ _ Hf (Hlow _ _ _ Hz)) as (u2 & E2 & V2).
    cbn in E1, E2. rewrite E1, bind_S, E2, bind_S. eexists. split; [done|]. by eapply arc_val_shortcut. }
  rewrite bind_S. pose proof Ha as (_ & Hh & _). apply lookup_lt_Some in Hh.
  pose proof (Hlen true) as L1. pose proof (Hlen false) as L2. cbn in L1, L2.
  destruct d; cbn [csd] in *; rewrite wr_Some by lia; rewrite bind_S; eexists; (split; [done|]); split.
  - intros []; cbn; rewrite ?insert_length; done.
  - intros d' a z y' v' Ha' HR'. destruct d'; cbn.
    + destruct (decide (a = xy)) as [->|Hne]; [rewrite list_lookup_insert by lia; by exists u|]. rewrite list_lookup_insert_ne by done.
      destruct (Hnew _ _ _ HR') as [[_ ?]|?]; [done|]. by apply (HR true a z y' v').
    + destruct (Hnew _ _ _ HR') as [[? _]|?]; [done|]. by apply (HR false a z y' v').
  - intros []; cbn; rewrite ?insert_length; done.
  - intros d' a z y' v' Ha' HR'. destruct d'; cbn.
    + destruct (Hnew _ _ _ HR') as [[? _]|?]; [done|]. by apply (HR true a z y' v').
    + destruct (decide (a = xy)) as [->|Hne]; [rewrite list_lookup_insert by lia; by exists u|]. rewrite list_lookup_insert_ne by done.
      destruct (Hnew _ _ _ HR') as [[_ ?]|?]; [done|]. by apply (HR false a z y' v').
Qed.
Lemma reset_arcs_ok (R : bool -> nat -> nat -> Prop) d x fb :
  x < n -> done_arcs R fb -> (forall d' z a, z < x -> R d' z a) ->
  exists fb', reset_arcs link c l d x fb = Some fb' /\ done_arcs (fun d' z a => (d' = d /\ z = x) \/ R d' z a) fb'.
Proof.
  intros Hx HR Hlow. unfold reset_arcs. change (if d then ch_fwd c else ch_bwd c) with (csd c d). cbv zeta.
  pose proof (co_side _ _ _ _ _ H d) as Hg. destruct (csr_range _ _ _ _ (so_csr _ _ Hg) Hx) as (lo & hi & Hlo & Hhi & Hle).
  rewrite Hlo, bind_S, Hhi, bind_S.
  destruct (for_range_inv (fun i fb => done_arcs (fun d' z a => (d' = d /\ lo <= a < i) \/ R d' z a) fb)
    (reset_arc link c l d) lo hi fb) as (fb' & -> & HD); [lia| | |].
  - destruct HR as [H1 H2]. split; [done|]. intros d' a z y v Ha [[_ ?]|?]; [lia|]. by eapply H2.
  - intros i fb' Hi HD. destruct (arc_at n _ Hg x lo hi i Hx Hlo Hhi Hi) as (y & v & _ & _ & Ha).
    eapply reset_arc_ok; [done|exact HD|intros; right; by apply Hlow|].
    intros d' z a [[-> ?]|?]; [|by right; right]. destruct (decide (a = i)) as [->|]; [by left|]. right. left. split; [done|lia].
  - exists fb'. split; [done|]. destruct HD as [H1 H2]. split; [done|]. intros d' a z y v Ha [[-> ->]|?]; [|by eapply H2; [|right]].
    eapply H2; [done|]. left. split; [done|]. destruct Ha as ((lo' & hi' & ? & ? & ?) & _). simplify_eq. done.
Qed.

Lemma resize_length {A} (v : A) k m : length (resize v k m) = k.
Proof. unfold resize. rewrite app_length, take_length, replicate_length. lia. Qed.

Lemma extra_reset_ok old : exists fb, extra_reset dflt link c l old = Some fb /\ done_arcs (fun _ _ _ => True) fb.
Proof.
  unfold extra_reset. rewrite nodes_n. cbv zeta.
  match goal with |- context [for_range 0 n ?body ?s] =>
    destruct (for_range_inv (fun i fb => done_arcs (fun _ z _ => z < i) fb) body 0 n s) as (fb & -> & HD) end; [lia| | |].
  - split.
    + intros d. destruct d; cbn; rewrite resize_length; apply so_weight with n; apply H.
    + intros d a x y v _ Hx. lia.
  - intros x fb Hx HD. destruct (reset_arcs_ok (fun _ z _ => z < x) true x fb) as (fb1 & -> & H1); [lia|done|done|]. rewrite bind_S.
    destruct (reset_arcs_ok _ false x fb1 ltac:(lia) H1) as (fb2 & -> & H2); [by right|]. exists fb2. split; [done|].
    destruct H2 as [A1 A2]. split; [done|]. intros d a z y v Ha Hz. eapply A2; [done|].
    destruct (decide (z = x)) as [->|]; [|right; right; lia]. destruct d; [right; by left|by left].
  - exists fb. split; [done|]. destruct HD as [A1 A2]. split; [done|]. intros d a x y v Ha _. eapply A2; [done|].
    by destruct (sarc_lt _ _ _ _ _ _ (co_side _ _ _ _ _ H d) Ha).
Qed.

(** ** The parameter extra_weight *)
Lemma get_weight_ok e d a x y v : extra_for dflt link c l e -> sarc (csd c d) a x y v -> exists u, get_weight link c e d a = Some u /\ arc_val d a u.
Proof.
  intros He Ha. destruct (sarc_lt _ _ _ _ _ _ (co_side _ _ _ _ _ H d) Ha) as [Hx _]. destruct He as [->|(old & f & b & E & ->)].
  - cbn. rewrite nodes_n. by eapply arc_extra_ok.
  - destruct (extra_reset_ok old) as (fb & E' & [_ HD]). rewrite E in E'. injection E' as <-.
    destruct (HD d a x y v Ha I) as (u & Hu & Hv). exists u. split; [|done]. cbn. destruct d; done.
Qed.
End arcs.
