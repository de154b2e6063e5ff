(** Correctness of Dijkstra's algorithm. *)
From Verif Require Import Base UtilSpec GraphSpec PathSpec PermutationProofs
  IdQueueModel IdQueueSpec IdQueueProofs IdSetModel IdSetSpec IdSetProofs DijkstraModel.
Ltac Zify.zify_post_hook ::= idtac.

Section dijkstra.
Context (n : nat) (g : graph) (w : nat -> N -> option N).
Notation fo := (g_first_out g).
Notation hd := (g_head g).
Notation tl := (g_tail g).
Hypothesis Hcsr : csr n fo hd.
Hypothesis Htail : tails_ok fo tl hd.
Hypothesis Hw : forall a t, a < length hd -> is_Some (w a t).
Hypothesis Hfifo : fifo w.

(** Why node [v] has time [t]: it is a source, or was relaxed from a settled node. *)
Definition just (ss : list (nat * N)) (p : list (option nat)) (v : nat) (t : N) (before : list (nat * N)) : Prop :=
  (p !! v = Some None /\ (v, t) ∈ ss) \/
  (exists a u tu wt, p !! v = Some (Some a) /\ (u, tu) ∈ before /\ arc_from_to fo hd u v a /\
     w a tu = Some wt /\ (wt < inf_weight)%N /\ t = (tu + wt)%N).

Definition covered (ord : list (nat * N)) (m : gmap nat N) (v : nat) (t : N) : Prop :=
  (exists t', (v, t') ∈ ord /\ (t' <= t)%N) \/ (exists k, m !! v = Some k /\ (k <= t)%N).

Record dcore (ss ord : list (nat * N)) (p : list (option nat)) (m : gmap nat N) (cl : nat -> nat -> Prop) : Prop := {
  c_nodup : NoDup (fst <$> ord);
  c_disj : forall v t, (v, t) ∈ ord -> m !! v = None;
  c_ord_lt : forall v t, (v, t) ∈ ord -> v < n;
  c_m_lt : forall v k, m !! v = Some k -> v < n;
  c_len : length p = n;
  c_just_ord : forall i v t, ord !! i = Some (v, t) -> just ss p v t (take i ord);
  c_just_m : forall v k, m !! v = Some k -> just ss p v k ord;
  c_src : forall v t, (v, t) ∈ ss -> covered ord m v t;
  c_arc : forall u tu v a wt, (u, tu) ∈ ord -> arc_from_to fo hd u v a -> cl u a ->
            w a tu = Some wt -> (wt < inf_weight)%N -> covered ord m v (tu + wt)%N;
  c_mono : forall v t x k, (v, t) ∈ ord -> m !! x = Some k -> (t <= k)%N;
  c_sorted : forall i j v t v' t', i <= j -> ord !! i = Some (v, t) -> ord !! j = Some (v', t') -> (t <= t')%N;
  c_earliest : forall v t, (v, t) ∈ ord -> earliest fo hd w ss v t }.

Arguments c_nodup {ss ord p m cl} _.
Arguments c_disj {ss ord p m cl} _.
Arguments c_ord_lt {ss ord p m cl} _.
Arguments c_m_lt {ss ord p m cl} _.
Arguments c_len {ss ord p m cl} _.
Arguments c_just_ord {ss ord p m cl} _.
Arguments c_just_m {ss ord p m cl} _.
Arguments c_src {ss ord p m cl} _.
Arguments c_arc {ss ord p m cl} _.
Arguments c_mono {ss ord p m cl} _.
Arguments c_sorted {ss ord p m cl} _.
Arguments c_earliest {ss ord p m cl} _.

Lemma ord_unique (ord : list (nat * N)) v t t' : NoDup (fst <$> ord) -> (v, t) ∈ ord -> (v, t') ∈ ord -> t = t'.
Proof.
  intros Hnd (i & Hi)%elem_of_list_lookup (j & Hj)%elem_of_list_lookup.
  assert (i = j) as ->; [|congruence].
  eapply (NoDup_lookup (fst <$> ord)); [done|by rewrite list_lookup_fmap, Hi|by rewrite list_lookup_fmap, Hj].
Qed.

Lemma reachable_src ss v t : (v, t) ∈ ss -> reachable_at fo hd w ss v t.
Proof. intros H. exists v, t, []. done. Qed.
Lemma reachable_step ss u tu v a wt :
  reachable_at fo hd w ss u tu -> arc_from_to fo hd u v a -> w a tu = Some wt -> (wt < inf_weight)%N ->
  reachable_at fo hd w ss v (tu + wt)%N.
Proof.
  intros (s & t0 & arcs & Hs & Hwk & Harr) Ha Hwt Hlt. exists s, t0, (arcs ++ [a]).
  split; [done|]. split.
  - apply walk_app. exists u. split; [done|]. cbn. eauto.
  - rewrite arrival_app, Harr, bind_S. cbn. rewrite Hwt. cbn. by rewrite decide_True.
Qed.

Lemma just_reachable ss p v t ord :
  (forall u tu, (u, tu) ∈ ord -> earliest fo hd w ss u tu) -> just ss p v t ord -> reachable_at fo hd w ss v t.
Proof.
  intros He [[_ Hs]|(a & u & tu & wt & _ & Hu & Ha & Hwt & Hlt & ->)].
  - by apply reachable_src.
  - eapply reachable_step; [apply He, Hu|done|done|done].
Qed.

(** Every arrival is covered by a settled node or dominated by a queue entry. *)
Lemma core_covers ss ord p m v t :
  dcore ss ord p m (fun _ _ => True) -> reachable_at fo hd w ss v t ->
  (exists t', (v, t') ∈ ord /\ (t' <= t)%N) \/ (exists x k, m !! x = Some k /\ (k <= t)%N).
Proof.
  intros C (s & t0 & arcs & Hs & Hwk & Harr). revert v t Hwk Harr.
  induction arcs as [|a arcs IH] using rev_ind; intros v t Hwk Harr.
  - cbn in *. simplify_eq. destruct (c_src C _ _ Hs) as [?|(k & ? & ?)]; eauto.
  - apply walk_app in Hwk as (u & Hwk & (y & Ha & E)). cbn in E. subst y.
    rewrite arrival_app in Harr. destruct (arrival w t0 arcs) as [tu|] eqn:Eu; [|done].
    rewrite bind_S in Harr. cbn in Harr. destruct (w a tu) as [wt|] eqn:Ew; [|done]. cbn in Harr.
    case_decide as Hlt; [|done]. simplify_eq.
    destruct (IH u tu Hwk eq_refl) as [(t' & Ht' & Hle)|(x & k & Hx & Hk)].
    + destruct (Hfifo a t' tu wt Hle Ew Hlt) as (w1 & Hw1 & Hlt1 & Hle1).
      destruct (c_arc C u t' v a w1 Ht' Ha I Hw1 Hlt1) as [(t2 & ? & ?)|(k & ? & ?)].
      * left. exists t2. split; [done|lia].
      * right. exists v, k. split; [done|lia].
    + right. exists x, k. split; [done|lia].
Qed.

Lemma just_mono ss p v t o1 o2 : (forall x, x ∈ o1 -> x ∈ o2) -> just ss p v t o1 -> just ss p v t o2.
Proof. intros H [?|(a & u & tu & wt & ?)]; [by left|right]. exists a, u, tu, wt. naive_solver. Qed.

Lemma just_insert ss p v t o h x : v <> h -> just ss p v t o -> just ss (<[h:=x]> p) v t o.
Proof.
  intros H. unfold just. rewrite list_lookup_insert_ne by done. done.
Qed.

(** Settling moves the minimum from the queue to the settled nodes. *)
Lemma core_pop ss ord p m x k :
  dcore ss ord p m (fun _ _ => True) -> is_min m x k ->
  dcore ss (ord ++ [(x, k)]) p (delete x m) (fun u _ => u <> x).
Proof.
  intros C [Hx Hmin].
  assert (forall v t, covered ord m v t -> covered (ord ++ [(x, k)]) (delete x m) v t) as Hcov.
  { intros v t [(t' & ? & ?)|(k' & Hk' & ?)].
    - left. exists t'. split; [set_solver|done].
    - destruct (decide (v = x)) as [->|].
      + left. exists k. split; [set_solver|]. by simplify_eq.
      + right. exists k'. rewrite lookup_delete_ne by done. done. }
  split.
  - rewrite fmap_app. apply NoDup_app. split; [apply C|]. split; [|apply NoDup_singleton].
    intros v ((v' & t) & -> & Hv)%elem_of_list_fmap. cbn. intros ->%elem_of_list_singleton.
    rewrite (c_disj C _ _ Hv) in Hx. done.
  - intros v t [Hv|[= -> ->]%elem_of_list_singleton]%elem_of_app; [|apply lookup_delete].
    destruct (decide (v = x)) as [->|]; [apply lookup_delete|]. rewrite lookup_delete_ne by done. by eapply (c_disj C).
  - intros v t [Hv|[= -> ->]%elem_of_list_singleton]%elem_of_app; [by eapply (c_ord_lt C)|by eapply (c_m_lt C)].
  - intros v k' [? ?]%lookup_delete_Some. by eapply (c_m_lt C).
  - apply C.
  - intros i v t Hi. apply lookup_app_Some in Hi as [Hi|[Hge Hi]].
    + rewrite take_app_le by (apply lookup_lt_Some in Hi; lia). by apply C.
    + apply list_lookup_singleton_Some in Hi as [Hi [= <- <-]].
      rewrite take_app_ge by lia. rewrite Hi. cbn. rewrite app_nil_r. by apply C.
  - intros v k' [? ?]%lookup_delete_Some. eapply just_mono; [|by eapply (c_just_m C)]. set_solver.
  - intros v t Hs. apply Hcov. by apply C.
  - intros u tu v a wt [Hu|[= -> ->]%elem_of_list_singleton]%elem_of_app Ha Hne Hwt Hlt; [|done].
    apply Hcov. by eapply (c_arc C).
  - intros v t y k' Hv [? Hy]%lookup_delete_Some.
    apply elem_of_app in Hv as [Hv|[= -> ->]%elem_of_list_singleton]; [by eapply (c_mono C)|by eapply Hmin].
  - intros i j v t v' t' Hij Hi Hj.
    apply lookup_app_Some in Hj as [Hj|[Hge Hj]].
    + rewrite lookup_app_l in Hi by (apply lookup_lt_Some in Hj; lia). by eapply (c_sorted C i j).
    + apply list_lookup_singleton_Some in Hj as [Hj [= <- <-]].
      apply lookup_app_Some in Hi as [Hi|[_ Hi]].
      * eapply (c_mono C); [by eapply elem_of_list_lookup_2|done].
      * apply list_lookup_singleton_Some in Hi as [_ [= <- <-]]. lia.
  - intros v t [Hv|[= -> ->]%elem_of_list_singleton]%elem_of_app; [by apply C|].
    split.
    + eapply just_reachable; [|by eapply (c_just_m C)]. apply C.
    + intros t' Hr. destruct (core_covers _ _ _ _ _ _ C Hr) as [(t2 & Ht2 & _)|(y & ky & Hy & ?)].
      * rewrite (c_disj C _ _ Ht2) in Hx. done.
      * specialize (Hmin _ _ Hy). lia.
Qed.

(** Putting a better entry for an unsettled node into the queue. *)
Lemma core_improve ss ord p m (cl : nat -> nat -> Prop) x k a h wt :
  dcore ss ord p m cl -> (x, k) ∈ ord -> (forall v t, (v, t) ∈ ord -> (t <= k)%N) ->
  arc_from_to fo hd x h a -> w a k = Some wt -> (wt < inf_weight)%N -> h < n ->
  h ∉ fst <$> ord -> (forall k0, m !! h = Some k0 -> (k + wt <= k0)%N) ->
  dcore ss ord (<[h:=Some a]> p) (<[h:=(k + wt)%N]> m) cl.
Proof.
  intros C Hx Hmax Ha Hwt Hlt Hh Hno Hle.
  assert (forall v t, (v, t) ∈ ord -> v <> h) as Hne.
  { intros v t Hv ->. apply Hno. apply elem_of_list_fmap. by exists (h, t). }
  assert (forall v t, covered ord m v t -> covered ord (<[h:=(k + wt)%N]> m) v t) as Hcov.
  { intros v t [?|(k' & Hk' & ?)]; [by left|right].
    destruct (decide (v = h)) as [->|].
    - exists (k + wt)%N. rewrite lookup_insert. split; [done|]. specialize (Hle _ Hk'). lia.
    - exists k'. rewrite lookup_insert_ne by done. done. }
  split.
  - apply C.
  - intros v t Hv. rewrite lookup_insert_ne by (by apply not_eq_sym; eapply Hne). by eapply (c_disj C).
  - apply C.
  - intros v k' [[<- _]|[_ ?]]%lookup_insert_Some; [done|by eapply (c_m_lt C)].
  - rewrite insert_length. apply C.
  - intros i v t Hi. apply just_insert; [|by apply C]. eapply Hne, elem_of_list_lookup_2, Hi.
  - intros v k' [[<- <-]|[? ?]]%lookup_insert_Some.
    + right. exists a, x, k, wt. rewrite list_lookup_insert by (rewrite (c_len C); done). done.
    + apply just_insert; [done|]. by apply C.
  - intros v t Hs. apply Hcov. by apply C.
  - intros. apply Hcov. by eapply (c_arc C).
  - intros v t y k' Hv [[<- <-]|[? ?]]%lookup_insert_Some; [|by eapply (c_mono C)].
    specialize (Hmax _ _ Hv). lia.
  - apply C.
  - apply C.
Qed.

Lemma core_cl ss ord p m (cl cl' : nat -> nat -> Prop) :
  dcore ss ord p m cl ->
  (forall u tu v a wt, (u, tu) ∈ ord -> arc_from_to fo hd u v a -> cl' u a -> w a tu = Some wt -> (wt < inf_weight)%N ->
     cl u a \/ covered ord m v (tu + wt)) ->
  dcore ss ord p m cl'.
Proof.
  intros C H. split; try apply C. intros u tu v a wt Hu Ha Hcl Hwt Hlt.
  destruct (H u tu v a wt Hu Ha Hcl Hwt Hlt); [by eapply (c_arc C)|done].
Qed.

Definition bounded (ss : list (nat * N)) : Prop := forall v t, earliest fo hd w ss v t -> (t < inf_weight)%N.

Lemma relax_arc_spec ss ord p m (cl : nat -> nat -> Prop) q f x k a :
  bounded ss -> dcore ss ord p m cl -> qref n q m -> fref n f (list_to_set (fst <$> ord)) ->
  (x, k) ∈ ord -> (forall v t, (v, t) ∈ ord -> (t <= k)%N) -> out_arc fo x a ->
  exists p' q' m', relax_arc g f w k a (p, q) = Some (p', q') /\ qref n q' m' /\
    dcore ss ord p' m' (fun u b => cl u b \/ (u = x /\ b = a)).
Proof.
  intros Hbd C Hq Hf Hx Hmax Hout.
  destruct (out_arc_lt n fo hd x a Hcsr Hout) as [Hxn Han].
  destruct (lookup_lt_is_Some_2 hd a Han) as [h Hh].
  assert (h < n) as Hhn by (eapply (csr_head _ _ _ Hcsr), elem_of_list_lookup_2, Hh).
  assert (arc_from_to fo hd x h a) as Harc by done.
  unfold relax_arc. rewrite Hh, bind_S, (is_set_spec n f _ h Hf Hhn), bind_S.
  case_bool_decide as Hin.
  { exists p, q, m. split; [done|]. split; [done|].
    eapply core_cl; [exact C|]. intros u tu v b wt Hu Hb [?|[-> ->]] Hwt Hlt; [by left|right].
    destruct Hb as [_ Hb]. rewrite Hh in Hb. injection Hb as <-.
    apply elem_of_list_to_set, elem_of_list_fmap in Hin as ((h' & th) & -> & Hin). cbn in *.
    left. exists th. split; [done|].
    assert (tu = k) as -> by (by eapply ord_unique; [apply C| |]). specialize (Hmax _ _ Hin). lia. }
  destruct (Hw a k Han) as [wt Hwt]. rewrite Hwt, bind_S.
  destruct (decide (wt < inf_weight)%N) as [Hlt|Hge].
  2: { exists p, q, m. split; [done|]. split; [done|].
    eapply core_cl; [exact C|]. intros u tu v b wt' Hu Hb [?|[-> ->]] Hwt' Hlt; [by left|exfalso].
    assert (tu = k) as -> by (by eapply ord_unique; [apply C| |]). rewrite Hwt in Hwt'. injection Hwt' as <-. done. }
  assert (((k + wt) mod word)%N = (k + wt)%N) as ->.
  { apply N.mod_small. pose proof (Hbd _ _ (c_earliest C _ _ Hx)).
    unfold inf_weight, word in *. lia. }
  rewrite (contains_id_spec n q m h Hq Hhn), bind_S.
  assert (h ∉ fst <$> ord) as Hno by (intros ?; apply Hin; by apply elem_of_list_to_set).
  assert (Hcl : forall p' m', dcore ss ord p' m' cl -> (exists k', m' !! h = Some k' /\ (k' <= k + wt)%N) ->
    dcore ss ord p' m' (fun u b => cl u b \/ (u = x /\ b = a))).
  { intros p' m' C' Hk'. eapply core_cl; [exact C'|]. intros u tu v b wt' Hu Hb [?|[-> ->]] Hwt' Hlt'; [by left|right].
    destruct Hb as [_ Hb]. rewrite Hh in Hb. injection Hb as <-.
    assert (tu = k) as -> by (by eapply ord_unique; [apply C| |]). rewrite Hwt in Hwt'. injection Hwt' as <-. by right. }
  case_bool_decide as Hc.
  - destruct Hc as [k0 Hk0].
    destruct (decrease_key_spec n q m h (k + wt) k0 Hq Hk0) as (q' & E & Hq'). rewrite E, bind_S.
    case_bool_decide as Hd.
    + rewrite decide_True in Hq' by done. rewrite wr_Some, bind_S by (rewrite (c_len C); lia).
      eexists _, _, _. split; [done|]. split; [exact Hq'|].
      apply Hcl; [|exists (k + wt)%N; rewrite lookup_insert; split; [done|lia]].
      eapply core_improve; try done. intros k1 Hk1. simplify_eq. lia.
    + rewrite decide_False in Hq' by done. eexists _, _, _. split; [done|]. split; [exact Hq'|].
      apply Hcl; [done|]. exists k0. split; [done|lia].
  - assert (m !! h = None) as Hnone by (destruct (m !! h); [destruct Hc; eauto|done]).
    destruct (push_spec n q m h (k + wt) Hq Hhn Hnone) as (q' & E & Hq'). rewrite E, bind_S.
    rewrite wr_Some, bind_S by (rewrite (c_len C); lia).
    eexists _, _, _. split; [done|]. split; [exact Hq'|].
    apply Hcl; [|exists (k + wt)%N; rewrite lookup_insert; split; [done|lia]].
    eapply core_improve; try done. intros k1 Hk1. simplify_eq.
Qed.

(** The invariant of the whole object. [ord] are the settled nodes in order. *)
Record dinv (ss ord : list (nat * N)) (d : dijkstra) : Prop := {
  i_graph : d_graph d = g;
  i_len : length (tentative d) = n;
  i_td : forall v t, (v, t) ∈ ord -> tentative d !! v = Some t;
  i_flags : fref n (was_popped d) (list_to_set (fst <$> ord));
  i_rest : exists m, qref n (d_queue d) m /\ dcore ss ord (pred d) m (fun _ _ => True) }.

Lemma dinv_not_finished ss ord d m : dinv ss ord d -> qref n (d_queue d) m -> is_finished d = bool_decide (m = ∅).
Proof. intros _ Hq. unfold is_finished. by apply (q_empty_spec n). Qed.

Lemma settle_spec ss ord d :
  bounded ss -> dinv ss ord d -> is_finished d = false ->
  exists x k d', settle d w = Some ((x, k), d') /\ dinv ss (ord ++ [(x, k)]) d'.
Proof.
  intros Hbd [Hg Hlen Htd Hf (m & Hq & C)] Hfin.
  unfold is_finished in Hfin. rewrite (q_empty_spec n _ m Hq) in Hfin. apply bool_decide_eq_false in Hfin.
  destruct (pop_spec n _ m Hq Hfin) as (x & k & q1 & E & Hmin & Hq1).
  unfold settle. rewrite E, bind_S.
  assert (x < n) as Hxn by (eapply (c_m_lt C), Hmin).
  rewrite wr_Some, bind_S by lia.
  destruct (f_step_refines n _ _ (FSet x) Hf Hxn) as (f1 & Ef & Hf1). cbn [f_step f_spec] in Ef, Hf1.
  rewrite Ef, bind_S.
  destruct (csr_range n fo hd x Hcsr Hxn) as (lo & hi & Hlo & Hhi & Hle).
  rewrite Hg, Hlo, bind_S, Hhi, bind_S.
  pose proof (core_pop _ _ _ _ _ _ C Hmin) as C1.
  set (ord1 := ord ++ [(x, k)]) in *.
  assert (fref n f1 (list_to_set (fst <$> ord1))) as Hf1'.
  { unfold ord1. rewrite fmap_app. replace (list_to_set ((fst <$> ord) ++ (fst <$> [(x, k)])) : gset nat)
      with ({[x]} ∪ list_to_set (fst <$> ord) : gset nat); [done|].
    rewrite list_to_set_app_L. cbn. set_solver. }
  assert (forall v t, (v, t) ∈ ord1 -> (t <= k)%N) as Hmax.
  { intros v t [Hv|[= -> ->]%elem_of_list_singleton]%elem_of_app; [|lia]. by eapply (c_mono C); [|apply Hmin]. }
  destruct (for_range_inv
    (fun a st => exists m, qref n (snd st) m /\ dcore ss ord1 (fst st) m (fun u b => u <> x \/ b < a))
    (relax_arc g f1 w k) lo hi (pred d, q1)) as ([p' q'] & Ep & m' & Hq' & C').
  - lia.
  - exists (delete x m). split; [done|]. eapply core_cl; [exact C1|]. cbn.
    intros u tu v a wt Hu [(lo' & hi' & Hlo' & Hhi' & Ha) _] [?|Hlt]; [by left|].
    destruct (decide (u = x)) as [->|]; [|by left]. simplify_eq. lia.
  - intros a [p1 q2] Ha (m1 & Hq2 & C2). cbn [fst snd] in *.
    destruct (relax_arc_spec ss ord1 p1 m1 _ q2 f1 x k a Hbd C2 Hq2 Hf1') as (p3 & q3 & m3 & E3 & Hq3 & C3).
    + set_solver.
    + done.
    + exists lo, hi. done.
    + exists (p3, q3). split; [done|]. exists m3. split; [done|]. cbn.
      eapply core_cl; [exact C3|]. intros u tu v b wt _ _ [?|?] _ _; left; [by left; left|].
      destruct (decide (u = x)) as [->|]; [|by left; left]. destruct (decide (b = a)) as [->|]; [by right|].
      left. right. lia.
  - rewrite Ep, bind_S. eexists _, _, _. split; [done|]. cbn [fst snd] in *.
    split; cbn [d_graph tentative pred was_popped d_queue].
    + done.
    + by rewrite insert_length.
    + intros v t [Hv|[= -> ->]%elem_of_list_singleton]%elem_of_app.
      * rewrite list_lookup_insert_ne; [by apply Htd|]. intros <-.
        destruct Hmin as [Hm _]. rewrite (c_disj C _ _ Hv) in Hm. done.
      * apply list_lookup_insert. lia.
    + done.
    + exists m'. split; [done|]. eapply core_cl; [exact C'|].
      intros u tu v a wt Hu [(lo' & hi' & Hlo' & Hhi' & Ha) _] _ _ _. left.
      destruct (decide (u = x)) as [->|]; [right|by left]. simplify_eq. lia.
Qed.

(** Adding a source before anything is settled. *)
Lemma add_source_spec ss d id t :
  dinv ss [] d -> id < n -> id ∉ fst <$> ss ->
  exists d', add_source d id t = Some d' /\ dinv (ss ++ [(id, t)]) [] d' /\ is_finished d' = false.
Proof.
  intros [Hg Hlen Htd Hf (m & Hq & C)] Hid Hno.
  unfold add_source. rewrite (wr_Some (tentative d)), bind_S by lia. rewrite (wr_Some (pred d)), bind_S by (rewrite (c_len C); lia).
  assert (m !! id = None) as Hnone.
  { destruct (m !! id) as [k|] eqn:E; [|done]. exfalso.
    destruct (c_just_m C _ _ E) as [[_ Hs]|(a & u & tu & wt & _ & Hu & _)]; [|by apply elem_of_nil in Hu].
    apply Hno. apply elem_of_list_fmap. by exists (id, k). }
  destruct (push_spec n _ m id t Hq Hid Hnone) as (q' & E & Hq'). rewrite E, bind_S.
  eexists. split; [done|]. split.
  - split; cbn [d_graph tentative pred was_popped d_queue].
    + done.
    + by rewrite insert_length.
    + intros v t' H. by apply elem_of_nil in H.
    + done.
    + exists (<[id:=t]> m). split; [done|]. split.
      * constructor.
      * intros v t' H. by apply elem_of_nil in H.
      * intros v t' H. by apply elem_of_nil in H.
      * intros v k [[<- _]|[_ ?]]%lookup_insert_Some; [done|by eapply (c_m_lt C)].
      * rewrite insert_length. apply C.
      * intros i v t' H. done.
      * intros v k [[<- <-]|[Hne Hv]]%lookup_insert_Some.
        -- left. rewrite list_lookup_insert by (rewrite (c_len C); lia). split; [done|set_solver].
        -- destruct (c_just_m C _ _ Hv) as [[Hp Hs]|(a & u & tu & wt & _ & Hu & _)]; [|by apply elem_of_nil in Hu].
           left. rewrite list_lookup_insert_ne by done. split; [done|set_solver].
      * intros v t' [Hs|[= -> ->]%elem_of_list_singleton]%elem_of_app; right.
        -- destruct (c_src C _ _ Hs) as [(? & H & _)|(k & Hk & ?)]; [by apply elem_of_nil in H|].
           exists k. rewrite lookup_insert_ne; [done|]. intros ->. by simplify_eq.
        -- exists t. rewrite lookup_insert. done.
      * intros u tu v a wt H. by apply elem_of_nil in H.
      * intros v t' x k H. by apply elem_of_nil in H.
      * intros i j v t' v' t2 _ H. done.
      * intros v t' H. by apply elem_of_nil in H.
  - unfold is_finished. cbn [d_queue]. rewrite (q_empty_spec n _ _ Hq').
    apply bool_decide_eq_false_2. intros H. apply (f_equal (lookup id)) in H. by rewrite lookup_insert in H.
Qed.

(** State of a fresh or reset object. *)
Lemma dinv_init d :
  d_graph d = g -> length (tentative d) = n -> length (pred d) = n -> fref n (was_popped d) ∅ -> qref n (d_queue d) ∅ ->
  dinv [] [] d.
Proof.
  intros Hg Ht Hp Hf Hq. split; [done|done| |done|].
  - intros v t H. by apply elem_of_nil in H.
  - exists ∅. split; [done|]. split; try done; try (by constructor);
      try (by intros v t H; apply elem_of_nil in H); by intros v t x k wt H; apply elem_of_nil in H.
Qed.

Lemma node_count_g : node_count g = n.
Proof. unfold node_count. rewrite (csr_len _ _ _ Hcsr). lia. Qed.

Lemma dinv_new : dinv [] [] (new_dijkstra g).
Proof.
  apply dinv_init; unfold new_dijkstra; rewrite node_count_g; cbn.
  - done.
  - apply replicate_length.
  - apply replicate_length.
  - apply fref_new.
  - apply qref_new.
Qed.

Lemma add_sources_spec d ss :
  dinv [] [] d -> NoDup (fst <$> ss) -> (forall v t, (v, t) ∈ ss -> v < n) ->
  exists d', add_sources d ss = Some d' /\ dinv ss [] d'.
Proof.
  intros Hd Hnd Hlt. unfold add_sources.
  apply (for_each_inv (fun pre d => dinv pre [] d) _ ss d Hd).
  intros pre [v t] post d1 -> Hd1. cbn [fst snd].
  destruct (add_source_spec pre d1 v t Hd1) as (d2 & E & Hd2 & _).
  - apply (Hlt v t). set_solver.
  - rewrite fmap_app, fmap_cons in Hnd. apply NoDup_app in Hnd as (_ & H & _). intros Hin. eapply H; [done|]. set_solver.
  - eauto.
Qed.

Lemma settle_n_inv ss : bounded ss -> forall k ord d rs d',
  dinv ss ord d -> settle_n k d w = Some (rs, d') -> dinv ss (ord ++ rs) d' /\ length rs = k.
Proof.
  intros Hbd. induction k as [|k IH]; intros ord d rs d' Hd E; cbn in E.
  - simplify_eq. rewrite app_nil_r. done.
  - destruct (settle d w) as [[r d1]|] eqn:Es; [|done]. rewrite bind_S in E.
    destruct (settle_n k d1 w) as [[rs1 d2]|] eqn:En; [|done]. rewrite bind_S in E. simplify_eq.
    destruct (is_finished d) eqn:Ef.
    { exfalso. destruct Hd as [_ _ _ _ (m & Hq & _)]. unfold is_finished in Ef.
      unfold settle, pop in Es. rewrite Ef in Es. cbn in Es. done. }
    destruct (settle_spec ss ord d Hbd Hd Ef) as (x & kx & d3 & E3 & Hd3). rewrite Es in E3. simplify_eq.
    destruct (IH _ _ _ _ Hd3 En) as [Hd4 Hl]. rewrite <- app_assoc in Hd4. split; [done|]. cbn. by rewrite Hl.
Qed.

Lemma settle_n_S k d rs d' :
  settle_n k d w = Some (rs, d') -> forall r d2, settle d' w = Some (r, d2) ->
  settle_n (S k) d w = Some (rs ++ [r], d2).
Proof.
  revert d rs. induction k as [|k IH]; intros d rs E r d2 Es.
  - cbn in E. simplify_eq. cbn [settle_n]. rewrite Es, bind_S, bind_S. done.
  - change (settle_n (S k) d w) with ('(r, d) ← settle d w; '(rs, d) ← settle_n k d w; Some (r :: rs, d)) in E.
    change (settle_n (S (S k)) d w) with ('(r, d) ← settle d w; '(rs, d) ← settle_n (S k) d w; Some (r :: rs, d)).
    destruct (settle d w) as [[r1 d1]|]; [|done]. rewrite bind_S in *.
    destruct (settle_n k d1 w) as [[rs1 d3]|] eqn:En; [|done]. rewrite bind_S in E. simplify_eq.
    rewrite (IH _ _ En _ _ Es), bind_S. done.
Qed.

Lemma ord_length ss ord d : dinv ss ord d -> length ord <= n.
Proof.
  intros [_ _ _ _ (m & _ & C)]. rewrite <- (fmap_length fst).
  replace n with (length (seq 0 n)) by apply seq_length.
  apply submseteq_length, NoDup_submseteq; [apply C|].
  intros v ((v' & t) & -> & Hv)%elem_of_list_fmap. apply elem_of_seq. cbn. pose proof (c_ord_lt C _ _ Hv). lia.
Qed.

Lemma settle_all ss d : bounded ss -> dinv ss [] d ->
  exists k rs d', k <= n /\ settle_n k d w = Some (rs, d') /\ is_finished d' = true.
Proof.
  intros Hbd Hd.
  assert (forall j, j <= S n -> (exists k rs d', k <= n /\ settle_n k d w = Some (rs, d') /\ is_finished d' = true) \/
     exists rs d', settle_n j d w = Some (rs, d')) as H.
  { induction j as [|j IH]; intros Hj.
    - right. by eexists _, _.
    - destruct IH as [?|(rs & d' & E)]; [lia|by left|].
      destruct (is_finished d') eqn:Ef.
      + left. destruct (settle_n_inv ss Hbd j [] d rs d' Hd E) as [Hd' Hl].
        pose proof (ord_length _ _ _ Hd') as Hn. cbn in Hn. exists j, rs, d'. split; [lia|done].
      + right. destruct (settle_n_inv ss Hbd j [] d rs d' Hd E) as [Hd' Hl].
        destruct (settle_spec ss _ d' Hbd Hd' Ef) as (x & k & d2 & Es & _).
        eexists _, _. by eapply settle_n_S. }
  destruct (H (S n)) as [?|(rs & d' & E)]; [lia|done|].
  destruct (settle_n_inv ss Hbd _ [] d rs d' Hd E) as [Hd' Hl].
  pose proof (ord_length _ _ _ Hd') as Hn. cbn in Hn. lia.
Qed.

(** Observations. *)
Lemma get_distance_settled ss ord d v t :
  dinv ss ord d -> (v, t) ∈ ord -> get_distance_to d v = Some t.
Proof.
  intros [_ _ Htd Hf (m & _ & C)] Hv. unfold get_distance_to.
  rewrite (is_set_spec n _ _ v Hf) by (by eapply (c_ord_lt C)). rewrite bind_S, bool_decide_eq_true_2; [by apply Htd|].
  apply elem_of_list_to_set, elem_of_list_fmap. by exists (v, t).
Qed.
Lemma get_distance_unsettled ss ord d v :
  dinv ss ord d -> v < n -> v ∉ fst <$> ord -> get_distance_to d v = Some inf_weight.
Proof.
  intros [_ _ Htd Hf (m & _ & C)] Hv Hno. unfold get_distance_to.
  rewrite (is_set_spec n _ _ v Hf) by done. rewrite bind_S, bool_decide_eq_false_2; [done|].
  intros H. apply Hno. by apply elem_of_list_to_set in H.
Qed.
Lemma finished_complete ss ord d v t :
  dinv ss ord d -> is_finished d = true -> earliest fo hd w ss v t -> (v, t) ∈ ord.
Proof.
  intros [_ _ _ _ (m & Hq & C)] Hfin [Hr Hmin].
  unfold is_finished in Hfin. rewrite (q_empty_spec n _ m Hq) in Hfin. apply bool_decide_eq_true in Hfin. subst m.
  destruct (core_covers _ _ _ _ _ _ C Hr) as [(t' & Ht' & Hle)|(x & k & Hx & _)]; [|by rewrite lookup_empty in Hx].
  pose proof (c_earliest C _ _ Ht') as [Hr' _]. specialize (Hmin _ Hr'). replace t with t' by lia. done.
Qed.
Lemma finished_reached ss ord d v :
  dinv ss ord d -> is_finished d = true -> (exists t, reachable_at fo hd w ss v t) -> v ∈ fst <$> ord.
Proof.
  intros [_ _ _ _ (m & Hq & C)] Hfin [t Hr].
  unfold is_finished in Hfin. rewrite (q_empty_spec n _ m Hq) in Hfin. apply bool_decide_eq_true in Hfin. subst m.
  destruct (core_covers _ _ _ _ _ _ C Hr) as [(t' & Ht' & Hle)|(x & k & Hx & _)]; [|by rewrite lookup_empty in Hx].
  apply elem_of_list_fmap. by exists (v, t').
Qed.

(** Paths. *)
Lemma walks_spec ss ord d fuel : dinv ss ord d -> forall i v t,
  ord !! i = Some (v, t) -> i < fuel ->
  exists s t0 arcs, arc_walk (pred d) tl fuel v = Some (rev arcs) /\
    node_walk (pred d) tl fuel v = Some (rev (walk_nodes hd s arcs)) /\
    (s, t0) ∈ ss /\ walk fo hd s arcs v /\ arrival w t0 arcs = Some t.
Proof.
  intros [_ _ _ _ (m & _ & C)]. induction fuel as [|fuel IH]; intros i v t Hi Hf; [lia|].
  destruct (c_just_ord C _ _ _ Hi) as [[Hp Hs]|(a & u & tu & wt & Hp & Hu & Ha & Hwt & Hlt & ->)].
  - exists v, t, []. cbn [arc_walk node_walk]. rewrite Hp, !bind_S. done.
  - apply elem_of_list_lookup in Hu as (j & Hj). apply lookup_take_Some in Hj as [Hj Hji].
    destruct (IH j u tu Hj ltac:(lia)) as (s & t0 & arcs & Ea & En & Hs & Hwk & Harr).
    exists s, t0, (arcs ++ [a]). cbn [arc_walk node_walk]. rewrite Hp, !bind_S.
    rewrite (proj2 Htail u a (proj1 Ha)), !bind_S, Ea, En, !bind_S.
    split; [by rewrite rev_app_distr|]. split.
    + f_equal. destruct Ha as [_ Ha].
      assert (forall arcs s, walk_nodes hd s (arcs ++ [a]) = walk_nodes hd s arcs ++ [v]) as ->.
      { clear -Ha. induction arcs as [|b arcs IH]; intros s; cbn.
        - f_equal. f_equal. by apply list_lookup_total_correct.
        - f_equal. apply IH. }
      by rewrite rev_app_distr.
    + split; [done|]. split.
      * apply walk_app. exists u. split; [done|]. cbn. eauto.
      * rewrite arrival_app, Harr, bind_S. cbn. rewrite Hwt. cbn. by rewrite decide_True.
Qed.

Lemma paths_correct ss ord d v t : dinv ss ord d -> (v, t) ∈ ord ->
  exists s t0 arcs, get_arc_path_to d v = Some arcs /\ get_node_path_to d v = Some (walk_nodes hd s arcs) /\
    (s, t0) ∈ ss /\ walk fo hd s arcs v /\ arrival w t0 arcs = Some t.
Proof.
  intros Hd Hv. pose proof Hd as [Hg _ Htd Hf (m & _ & C)].
  apply elem_of_list_lookup in Hv as (i & Hi). pose proof (ord_length _ _ _ Hd) as Hl.
  pose proof (elem_of_list_lookup_2 _ _ _ Hi) as Hv.
  destruct (walks_spec ss ord d n Hd i v t Hi) as (s & t0 & arcs & Ea & En & Hs & Hwk & Harr).
  { apply lookup_lt_Some in Hi. lia. }
  exists s, t0, arcs. unfold get_arc_path_to, get_node_path_to, was_node_reached.
  rewrite (is_set_spec n _ _ v Hf) by (by eapply (c_ord_lt C)). rewrite bind_S, bool_decide_eq_true_2.
  - rewrite Hg, node_count_g, Ea, En, !bind_S, !rev_involutive. done.
  - apply elem_of_list_to_set, elem_of_list_fmap. by exists (v, t).
Qed.
Lemma paths_unreached ss ord d v : dinv ss ord d -> v < n -> v ∉ fst <$> ord ->
  get_arc_path_to d v = Some [] /\ get_node_path_to d v = Some [].
Proof.
  intros [_ _ _ Hf _] Hv Hno. unfold get_arc_path_to, get_node_path_to, was_node_reached.
  rewrite (is_set_spec n _ _ v Hf) by done. rewrite bind_S, bool_decide_eq_false_2; [done|].
  intros H. apply Hno. by apply elem_of_list_to_set in H.
Qed.
End dijkstra.
