(** From ranks to node ids; partial customization rounds. *)
From stdpp Require Import gmap.
From Verif Require Import Base UtilSpec GraphSpec PathSpec WalkSpec IdSetModel IdSetProofs CchModel CchSpec CchCustomizeProofs
  CchPartialProofs CchQueryProofs CchUnpackProofs CchPinProofs CchBuildModel CchFilterProofs CchApiSpec CchApiProofs.
Ltac Zify.zify_post_hook ::= idtac.

Lemma dist_walk_rev E u v L : dist_walk (rev_arcs E) u v L -> dist_walk E v u L.
Proof. intros [[-> ->]|[k H]]; [by left|]. right. exists k. by apply gw_rev'. Qed.
Lemma dist_walk_rev' E u v L : dist_walk E v u L -> dist_walk (rev_arcs E) u v L.
Proof. intros [[-> ->]|[k H]]; [by left|]. right. exists k. by apply gw_rev. Qed.

Section Transfer.
  Context (order tail head rt rh : list nat) (c : cch) (B : built order tail head rt rh c).
  Let n := length order.
  Let WF : wf_cch n rt rh c := bu_wf _ _ _ _ _ _ B.

  Lemma rk_ok s : s < n -> c_rank c !! s = Some (rk c s) /\ rk c s < n.
  Proof.
    intros Hs. destruct (bu_rank _ _ _ _ _ _ B) as [Hl Hi]. unfold rk.
    destruct (lookup_lt_is_Some_2 (c_rank c) s) as [r Hr]; [rewrite Hl; exact Hs|]. rewrite Hr. cbn. split; [done|].
    apply Hi in Hr. by eapply lookup_lt_Some.
  Qed.
  Lemma or_ok s : s < n -> c_order c !! rk c s = Some s.
  Proof.
    intros Hs. rewrite (bu_order _ _ _ _ _ _ B). apply (bu_rank _ _ _ _ _ _ B). by apply rk_ok.
  Qed.
  Lemma rk_inj s t : s < n -> t < n -> rk c s = rk c t -> s = t.
  Proof. intros Hs Ht He. pose proof (or_ok s Hs). pose proof (or_ok t Ht). rewrite He in *. by simplify_eq. Qed.
  Lemma ranked_back l rl e r : ranked (c_rank c) l rl -> rl !! e = Some r -> exists s, l !! e = Some s /\ s < n /\ r = rk c s.
  Proof.
    intros [Hl Hr] He. destruct (lookup_lt_is_Some_2 l e) as [s Hs]; [rewrite <- Hl; by eapply lookup_lt_Some|].
    rewrite (Hr _ _ Hs) in He. exists s. split; [done|]. unfold rk. rewrite He. split; [|done].
    unfold n. rewrite <- (proj1 (bu_rank _ _ _ _ _ _ B)). by eapply lookup_lt_Some.
  Qed.
  Lemma ranked_fwd l rl e s : ranked (c_rank c) l rl -> l !! e = Some s -> rl !! e = Some (rk c s) /\ s < n.
  Proof.
    intros R Hs. destruct R as [Hl Hr]. destruct (lookup_lt_is_Some_2 rl e) as [r Hr']; [rewrite Hl; by eapply lookup_lt_Some|].
    destruct (ranked_back l rl e r (conj Hl Hr) Hr') as (s' & ? & ? & ->). by simplify_eq.
  Qed.
  Let Rt := bu_tail _ _ _ _ _ _ B.
  Let Rh := bu_head _ _ _ _ _ _ B.

  Lemma arcs_back w r r' x : arcs_of rt rh w r r' x -> exists u v, u < n /\ v < n /\ r = rk c u /\ r' = rk c v /\ arcs_of tail head w u v x.
  Proof.
    intros (e & H1 & H2 & H3). destruct (ranked_back _ _ _ _ Rt H1) as (u & ? & ? & ->), (ranked_back _ _ _ _ Rh H2) as (v & ? & ? & ->).
    exists u, v. do 4 (split; [done|]). by exists e.
  Qed.
  Lemma arcs_fwd w u v x : arcs_of tail head w u v x -> arcs_of rt rh w (rk c u) (rk c v) x.
  Proof.
    intros (e & H1 & H2 & H3). exists e. destruct (ranked_fwd _ _ _ _ Rt H1), (ranked_fwd _ _ _ _ Rh H2). done.
  Qed.
  Lemma gw_fwd w u v (P : nat -> Prop) L k : gw (arcs_of tail head w) (fun x => P (rk c x)) u v L k -> gw (arcs_of rt rh w) P (rk c u) (rk c v) L k.
  Proof. induction 1 as [u v x H|u x v y L k H Hx _ IH]; [by apply gw_arc, arcs_fwd|]. eapply gw_step; [by apply arcs_fwd|done|done]. Qed.
  Lemma gw_back w r r' (P : nat -> Prop) L k : gw (arcs_of rt rh w) P r r' L k -> forall u v, u < n -> v < n -> r = rk c u -> r' = rk c v ->
    gw (arcs_of tail head w) (fun x => P (rk c x)) u v L k.
  Proof.
    induction 1 as [r r' x H|r y r' z L k H Hx _ IH]; intros u v Hu Hv -> ->;
      destruct (arcs_back _ _ _ _ H) as (u1 & v1 & ? & ? & E1 & E2 & Ha); (assert (u = u1) as <- by (by apply rk_inj)).
    - assert (v = v1) as <- by (by apply rk_inj). by constructor.
    - subst y. eapply gw_step; [exact Ha|done|]. by apply IH.
  Qed.
  Lemma dist_fwd w u v L : dist_walk (arcs_of tail head w) u v L -> dist_walk (arcs_of rt rh w) (rk c u) (rk c v) L.
  Proof. intros [[-> ->]|[k H]]; [by left|]. right. exists k. by apply (gw_fwd w u v (fun _ => True)). Qed.
  Lemma dist_back w u v L : u < n -> v < n -> dist_walk (arcs_of rt rh w) (rk c u) (rk c v) L -> dist_walk (arcs_of tail head w) u v L.
  Proof.
    intros Hu Hv [[E ->]|[k H]]; [left; by apply rk_inj in E|]. right. exists k.
    exact (gw_back w _ _ (fun _ => True) _ _ H u v Hu Hv eq_refl eq_refl).
  Qed.
  Lemma awalk_back r p r' : awalk rt rh r p r' -> forall u v, u < n -> v < n -> r = rk c u -> r' = rk c v -> awalk tail head u p v.
  Proof.
    induction 1 as [r|r e x p r' Ht Hh _ IH]; intros u v Hu Hv E1 E2.
    - subst r. assert (u = v) as <- by (by apply rk_inj). constructor.
    - destruct (ranked_back _ _ _ _ Rt Ht) as (u1 & ? & ? & E3), (ranked_back _ _ _ _ Rh Hh) as (v1 & ? & ? & E4).
      rewrite E1 in E3. assert (u = u1) as <- by (by apply rk_inj). econstructor; [done|done|]. by apply IH.
  Qed.
  Lemma tails_back p rs : mapM (fun e => rt !! e) p = Some rs -> exists us, mapM (fun e => tail !! e) p = Some us /\ mapM (fun r => c_order c !! r) rs = Some us.
  Proof.
    revert rs. induction p as [|e p IH]; intros rs H; [injection H as <-; by exists []|].
    cbn [mapM] in H. apply bind_Some in H as (r & E & H). apply bind_Some in H as (rs' & E' & H).
    injection H as <-. destruct (IH rs' E') as (us & H1 & H2). destruct (ranked_back _ _ _ _ Rt E) as (u & Hu & Hn & ->).
    exists (u :: us). cbn [mapM]. rewrite Hu, H1, (or_ok u Hn). bs. rewrite H2. done.
  Qed.

  Definition below_n (ss : list (nat * N)) : Prop := Forall (fun sd => fst sd < n) ss.
  Lemma best_back w ss ts best : below_n ss -> below_n ts ->
    best_route (arcs_of rt rh w) (rks c ss) (rks c ts) best -> best_route (arcs_of tail head w) ss ts best.
  Proof.
    intros Hs Ht (H1 & H2 & H3). split; [done|]. split.
    - intros s ds t dt L Hin Hin' Hw. eapply H2; [apply elem_of_rks; eauto|apply elem_of_rks; eauto|]. by apply dist_fwd.
    - destruct H3 as [H3|(r & ds & r' & dt & L & Hr & Hr' & Hw & ->)]; [by left|]. right.
      apply elem_of_rks in Hr as (s & Hin & ->), Hr' as (t & Hin' & ->). exists s, ds, t, dt, L. do 2 (split; [done|]). split; [|done].
      apply dist_back; [|by eapply Forall_forall in Hin'; [|exact Ht]|done]. by eapply Forall_forall in Hin; [|exact Hs].
  Qed.
  Lemma best_back_dir w d ss ts best : below_n ss -> below_n ts ->
    best_route (dgraph rt rh w d) (rks c ss) (rks c ts) best -> 
    if d then best_route (arcs_of tail head w) ss ts best else best_route (arcs_of tail head w) ts ss best.
  Proof.
    intros Hs Ht H. destruct d; [by apply best_back|]. apply best_back; [done..|]. destruct H as (H1 & H2 & H3). split; [done|]. split.
    - intros s ds t dt L Hin Hin' Hw. rewrite (N.add_comm _ dt), (N.add_comm ds), N.add_assoc. eapply H2; [done..|]. by apply dist_walk_rev'.
    - destruct H3 as [H3|(r & ds & r' & dt & L & Hr & Hr' & Hw & ->)]; [by left|]. right. exists r', dt, r, ds, L.
      do 2 (split; [done|]). split; [by apply dist_walk_rev|lia].
  Qed.
End Transfer.

(** The nodes asked for exist. *)
Definition asked_below (n : nat) (G : asked) : Prop :=
  match G with
  | GInit ss ts | GRun _ ss ts => Forall (fun sd => fst sd < n) ss /\ Forall (fun sd => fst sd < n) ts
  | GPin _ l ss | GPinRun _ l _ ss => Forall (fun x => x < n) l /\ Forall (fun sd => fst sd < n) ss
  end.
Lemma history_below n c G ops G' : history n c G ops G' -> asked_below n G -> asked_below n G'.
Proof.
  induction 1 as [G|G o G' ops G'' Ha _ IH]; [done|]. intros HG. apply IH. clear IH.
  destruct Ha; cbn in HG |- *; try (destruct HG); auto.
Qed.

(** ** Partial customization *)
Section Partial.
  Context (n : nat) (rt rh : list nat) (c : cch) (WF : wf_cch n rt rh c).

  Lemma updates_spec es q S : sref (length (up_head c)) q S -> Forall (fun e => e < length rt) es ->
    exists q' S', for_each es (fun e q => update_arc c q e) q = Some q' /\ sref (length (up_head c)) q' S' /\
      (forall a, a ∈ S -> a ∈ S') /\ (forall e a, e ∈ es -> in_to_cch c !! e = Some (Some a) -> a ∈ S').
  Proof.
    intros Hq Hes. revert q S Hq. induction Hes as [|e es He _ IH]; intros q S Hq.
    - exists q, S. split; [done|]. split; [done|]. split; [done|]. by intros ? ? ?%elem_of_nil.
    - cbn [for_each].
      destruct (lookup_lt_is_Some_2 (in_to_cch c) e) as [o Ho]; [by rewrite (wf_inlen _ _ _ _ WF)|].
      assert (exists q1 S1, (match o with Some a => idset_push q a | None => Some q end) = Some q1 /\ sref (length (up_head c)) q1 S1 /\
        (forall a, a ∈ S -> a ∈ S1) /\ (forall a, o = Some a -> a ∈ S1)) as (q1 & S1 & E1 & Hq1 & Hs1 & Ha1).
      { destruct o as [a|]; [|by exists q, S].
        assert (a < length (up_head c)) as Ha.
        { destruct (wf_ends _ _ _ _ WF) as (Hl & _).
          destruct (lookup_lt_is_Some_2 rt e) as [u Hu]; [lia|]. destruct (lookup_lt_is_Some_2 rh e) as [v Hv]; [lia|].
          destruct (decide (u = v)) as [<-|Hne]; [rewrite (wf_inloop _ _ _ _ WF _ _ Hu Hv) in Ho; done|].
          destruct (wf_inmap _ _ _ _ WF _ _ _ Hu Hv Hne) as (a' & Ha' & Hup). simplify_eq. exact (proj1 (up_arc_lt _ _ _ _ WF _ _ _ Hup)). }
        destruct (idset_push_spec _ q S a Hq Ha) as (q1 & E & Hq1). exists q1, ({[ a ]} ∪ S). split; [done|]. split; [done|].
        split; [intros; apply elem_of_union; by right|]. intros a' [= ->]. apply elem_of_union. left. by apply elem_of_singleton. }
      assert (update_arc c q e = Some q1) as -> by (unfold update_arc; rewrite Ho; bs; exact E1).
      bs. destruct (IH q1 S1 Hq1) as (q2 & S2 & E2 & Hq2 & Hs2 & Ha2). exists q2, S2. split; [done|]. split; [done|].
      split; [auto|]. intros e' a Hin Ha. apply elem_of_cons in Hin as [->|Hin]; [|by eauto]. rewrite Ho in Ha. simplify_eq. auto.
  Qed.

  Lemma pinv_start w0 w m es (S : gset nat) :
    customized rt rh c w0 m -> length w0 = length rt -> length w = length rt -> changed_at es w0 w ->
    (forall e a, e ∈ es -> in_to_cch c !! e = Some (Some a) -> a ∈ S) -> (forall a, a ∈ S -> a < length (up_head c)) ->
    pinv rt rh c w S m.
  Proof.
    intros CU H0 H1 Hch HS Hlt. constructor; [apply CU|apply CU|apply CU|done|].
    intros d a u v x Hup Hna Hx.
    assert (forall e, dir_arc rt rh d u v e -> w !! e = w0 !! e) as Hsame.
    { intros e He. symmetry. apply Hch. intros Hin. apply Hna. eapply HS; [done|].
      destruct (up_arc_lt _ _ _ _ WF _ _ _ Hup) as (_ & Huv & _).
      destruct d; destruct He as [Ht Hh]; destruct (wf_inmap _ _ _ _ WF _ _ _ Ht Hh) as (a' & Ha' & Hup'); try lia;
        [rewrite Nat.min_l, Nat.max_r in Hup' by lia|rewrite Nat.min_r, Nat.max_l in Hup' by lia];
        by rewrite <- (up_arc_unique _ _ _ _ WF _ _ _ _ Hup' Hup). }
    split; [by eapply (cu_inf _ _ _ _ _ CU)|]. split.
    - intros e y He Hy. rewrite (Hsame e He) in Hy. by eapply (cu_in _ _ _ _ _ CU).
    - split; [intros b mi p q Ht _ Hp Hq; by eapply (cu_tri _ _ _ _ _ CU)|].
      destruct (cu_tight _ _ _ _ _ CU d a u v x Hup Hx) as [H|[(e & He & Hy)|(b & mi & p & q & ? & ? & ? & ?)]]; [by left| |].
      + right; left. exists e. split; [done|]. by rewrite (Hsame e He).
      + right; right. exists b, mi, p, q. done.
  Qed.

  Lemma round_spec asserts es w0 w q m :
    sref (length (up_head c)) q ∅ -> customized rt rh c w0 m -> length w0 = length rt -> length w = length rt ->
    Forall (fun x => (x <= inf_weight)%N) w -> changed_at es w0 w -> Forall (fun e => e < length rt) es ->
    exists q' m', update_round asserts c (es, w) (q, m) = Some (q', m') /\ sref (length (up_head c)) q' ∅ /\ customized rt rh c w m'.
  Proof.
    intros Hq CU H0 H1 Hw Hch Hes. unfold update_round. cbn [fst snd].
    destruct (updates_spec es q ∅ Hq Hes) as (q1 & S & E & Hq1 & _ & HS). rewrite E. bs.
    destruct (partial_loop_spec n rt rh c WF w H1 ltac:(intros e x Hx; by eapply Forall_lookup_1 in Hw; [|exact Hx]) asserts (length (up_head c)) 0 q1 S m)
      as (q' & m' & E' & Hq' & CU'); [done| |lia|lia|by exists q', m'].
    eapply pinv_start; [done..|]. intros a Ha. destruct Hq1 as (K & _ & _ & _ & _ & _ & _ & Hb & _). by apply Hb.
  Qed.
End Partial.

(** ** From the specification to the lemmas *)
Lemma build_conditions asserts log filter order tail head c :
  build_cch asserts log filter order tail head = Some c -> filter || log = true /\ (log = true -> length order <> 0).
Proof.
  unfold build_cch. intros H.
  repeat match type of H with
  | (?o ≫= _) = Some _ => apply bind_Some in H as (? & ? & H)
  | context [let '(_, _) := ?p in _] => destruct p
  end.
  match goal with H1 : chk _ = Some _, H2 : chk _ = Some _ |- _ => rename H1 into C2, H2 into C1 end.
  unfold chk in C1, C2.
  destruct filter, log; cbn in *; try done; (split; [done|]); intros _; case_bool_decide; done.
Qed.
Lemma cch_of_built order tail head c : cch_of order tail head c -> exists rt rh, built order tail head rt rh c.
Proof.
  intros ((Hp & Hl & Ht & Hh) & a & log & f & E). destruct (build_conditions _ _ _ _ _ _ _ E) as [C1 C2].
  destruct (build_cch_spec a log f order tail head Hp Hl) as (c' & rt & rh & E' & Hb & _); [by apply Forall_forall|by apply Forall_forall|done|done|].
  rewrite E in E'. injection E' as <-. by exists rt, rh.
Qed.
Lemma built_len order tail head rt rh c : built order tail head rt rh c -> length rt = length tail.
Proof. intros B. apply (bu_tail _ _ _ _ _ _ B). Qed.
Lemma metric_of order tail head rt rh c w m : built order tail head rt rh c -> customized_for tail c w m ->
  customized rt rh c w m /\ length w = length rt /\ (forall e x, w !! e = Some x -> (x <= inf_weight)%N).
Proof.
  intros B ((Hw & Hi) & m0 & H1 & H2 & E). rewrite (built_len _ _ _ _ _ _ B).
  assert (forall e x, w !! e = Some x -> (x <= inf_weight)%N) as Hwi by (intros e x Hx; by eapply Forall_lookup_1 in Hi; [|exact Hx]).
  destruct (customize_spec _ rt rh c (bu_wf _ _ _ _ _ _ B) w ltac:(by rewrite (built_len _ _ _ _ _ _ B)) Hwi m0 H1 H2) as (m' & E' & CU).
  rewrite E in E'. injection E' as <-. done.
Qed.
