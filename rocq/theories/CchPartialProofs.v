(** Partial customization restores the customization equations. *)
From Verif Require Import Base IdSetModel IdSetSpec IdSetProofs GraphSpec PathSpec WalkSpec CchModel CchSpec
  CchCustomizeProofs CchTriangleProofs.
Ltac Zify.zify_post_hook ::= idtac.

Section Partial.
  Context (n : nat) (rt rh : list nat) (c : cch) (WF : wf_cch n rt rh c).
  Context (w : list N) (Hlen : length w = length rt) (Hw : forall e x, w !! e = Some x -> (x <= inf_weight)%N).
  Notation arcok := (arcok rt rh c w).

  (** Relaxing one more lower triangle of the arc [t]. *)
  Lemma relax_add m T t u v b mi :
    length (m_fwd m) = length (up_head c) -> length (m_bwd m) = length (up_head c) ->
    (forall d a x, dw m d a = Some x -> (x <= inf_weight)%N) ->
    up_arc c t u v -> lower_tri c b mi t ->
    (forall d, exists x, dw m d t = Some x /\ arcok m T t u v d x) ->
    exists m', relax_triangle b mi t m = Some m' /\
      length (m_fwd m') = length (up_head c) /\ length (m_bwd m') = length (up_head c) /\
      (forall d a, a <> t -> dw m' d a = dw m d a) /\
      (forall d a x, dw m' d a = Some x -> (x <= inf_weight)%N) /\
      (forall d, exists x, dw m' d t = Some x /\ arcok m' (fun b' mi' => T b' mi' \/ (b' = b /\ mi' = mi)) t u v d x).
  Proof.
    intros Hf Hb Hinf Ht Htri Hok. pose proof (lower_tri_lt _ _ _ _ WF _ _ _ Htri) as Hlt.
    destruct (up_arc_lt _ _ _ _ WF _ _ _ Ht) as (Htl & _).
    assert (forall d a, a < length (up_head c) -> exists x, dw m d a = Some x) as Hex.
    { intros d a Ha. apply lookup_lt_is_Some_2. destruct d; lia. }
    destruct (Hex true b) as [bf Hbf]; [lia|]. destruct (Hex false b) as [bb Hbb]; [lia|].
    destruct (Hex true mi) as [mf Hmf]; [lia|]. destruct (Hex false mi) as [mb Hmb]; [lia|].
    destruct (Hok true) as (tf & Htf & Hokf), (Hok false) as (tb & Htb & Hokb).
    rewrite (relax_valid m b mi t bf bb mf mb tf tb ltac:(lia) ltac:(lia) Hbf Hbb Hmf Hmb Htf Htb).
    rewrite !add32_le by eauto. eexists. split; [done|]. cbn [m_fwd m_bwd]. rewrite !insert_length.
    split; [done|]. split; [done|].
    set (m' := mkMetric _ _).
    assert (forall d a, a <> t -> dw m' d a = dw m d a) as Hsame.
    { intros [] a Ha; unfold dw, m'; cbn [m_fwd m_bwd]; by rewrite list_lookup_insert_ne. }
    assert (dw m' true t = Some (N.min tf (bb + mf))) as Hf'.
    { unfold dw, m'. cbn [m_fwd m_bwd]. apply list_lookup_insert. lia. }
    assert (dw m' false t = Some (N.min tb (bf + mb))) as Hb'.
    { unfold dw, m'. cbn [m_fwd m_bwd]. apply list_lookup_insert. lia. }
    split; [done|].
    assert (tf <= inf_weight /\ tb <= inf_weight)%N as [Htfi Htbi] by eauto.
    split.
    { intros d a x Hx. destruct (decide (a = t)) as [->|Hne]; [|rewrite Hsame in Hx by done; eauto].
      destruct d; simplify_eq; lia. }
    assert (forall d val p q, dw m (negb d) b = Some p -> dw m d mi = Some q -> arcok m T t u v d val ->
      arcok m' (fun b' mi' => T b' mi' \/ (b' = b /\ mi' = mi)) t u v d (N.min val (p + q))) as Hgo.
    { intros d val p q Hp Hq (H1 & H2 & H3 & H4). split; [lia|]. split.
      { intros e y' He Hy'. specialize (H2 _ _ He Hy'). lia. }
      split.
      - intros b' mi' p' q' Hl HT Hp' Hq'. pose proof (lower_tri_lt _ _ _ _ WF _ _ _ Hl).
        rewrite Hsame in Hp', Hq' by lia.
        destruct HT as [HT|[-> ->]].
        + assert (val <= p' + q')%N by (eapply H3; eauto). lia.
        + simplify_eq. lia.
      - destruct (N.min_spec val (p + q)) as [[? ->]|[? ->]].
        + destruct H4 as [?|[?|(b' & mi' & p' & q' & Hl & HT & Hp' & Hq' & ->)]]; [by left|by right; left|right; right].
          pose proof (lower_tri_lt _ _ _ _ WF _ _ _ Hl).
          exists b', mi', p', q'. rewrite !Hsame by lia. split; [done|]. split; [by left|]. done.
        + right. right. exists b, mi, p, q. rewrite !Hsame by lia. split; [done|]. split; [by right|done]. }
    intros []; [exists (N.min tf (bb + mf))|exists (N.min tb (bf + mb))]; (split; [done|]); by apply Hgo.
  Qed.

  (** Recomputing an arc from its input arcs and lower triangles (984-992). *)
  Lemma recompute m t u v :
    length (m_fwd m) = length (up_head c) -> length (m_bwd m) = length (up_head c) ->
    (forall d a x, dw m d a = Some x -> (x <= inf_weight)%N) ->
    up_arc c t u v ->
    exists m', (f ← wr (m_fwd m) t inf_weight; g ← wr (m_bwd m) t inf_weight;
       m ← extract_arc c w t (mkMetric f g);
       '(m, _) ← forall_lower_triangles_of_arc c t
          (fun bottom mid top _ _ _ m => m ← relax_triangle bottom mid top m; Some (m, true)) m; Some m) = Some m' /\
      length (m_fwd m') = length (up_head c) /\ length (m_bwd m') = length (up_head c) /\
      (forall d a, a <> t -> dw m' d a = dw m d a) /\
      (forall d a x, dw m' d a = Some x -> (x <= inf_weight)%N) /\
      (forall d, exists x, dw m' d t = Some x /\ arcok m' (fun _ _ => True) t u v d x).
  Proof.
    intros Hf Hb Hinf Ht. pose proof (up_arc_lt _ _ _ _ WF _ _ _ Ht) as Htl.
    rewrite !wr_Some, bind_S, bind_S by lia.
    destruct (extract_arc_spec n rt rh c WF w Hlen Hw t u v (mkMetric (<[t:=inf_weight]> (m_fwd m)) (<[t:=inf_weight]> (m_bwd m))) Ht)
      as (m1 & -> & Hf1 & Hb1 & Hsame1 & Hini); [by cbn [m_fwd m_bwd]; rewrite insert_length..|].
    rewrite bind_S. unfold forall_lower_triangles_of_arc. rewrite (proj1 Ht), bind_S, (proj2 Ht), bind_S.
    destruct (lower_triangles_list _ _ _ _ WF u v t Ht) as (l & Hl & ->).
    assert (forall d a, a <> t -> dw m1 d a = dw m d a) as Hs1.
    { intros d a Ha. rewrite Hsame1 by done. destruct d; unfold dw; cbn [m_fwd m_bwd]; by rewrite list_lookup_insert_ne. }
    match goal with |- context [for_until l ?f m1] =>
    destruct (for_until_inv (fun pre m' => length (m_fwd m') = length (up_head c) /\ length (m_bwd m') = length (up_head c) /\
      (forall d a, a <> t -> dw m' d a = dw m d a) /\
      (forall d a x, dw m' d a = Some x -> (x <= inf_weight)%N) /\
      (forall d, exists x, dw m' d t = Some x /\ arcok m' (fun b mi => exists z, (b, mi, z) ∈ pre) t u v d x)) l f m1)
      as (m' & -> & Hf' & Hb' & Hs' & Hi' & Hok') end.
    - split; [done|]. split; [done|]. split; [done|]. split.
      + intros d a x Hx. destruct (decide (a = t)) as [->|Hne]; [|rewrite Hs1 in Hx by done; eauto].
        destruct (Hini d) as (x' & Hx' & Hi). simplify_eq. apply Hi.
      + intros d. destruct (Hini d) as (x & Hx & Hi1 & Hi2 & Hi3). exists x. split; [done|].
        split; [done|]. split; [done|]. split; [by intros b mi p q _ [z []%elem_of_nil]|]. naive_solver.
    - intros pre [[b mi] z] post m2 Hpre (Hf2 & Hb2 & Hs2 & Hi2 & Hok2). cbn [fst snd].
      assert ((b, mi, z) ∈ l) as Hin by (rewrite Hpre; apply elem_of_app; right; constructor).
      apply Hl in Hin as [Hzb Hzm].
      destruct (relax_add m2 (fun b mi => exists z, (b, mi, z) ∈ pre) t u v b mi) as (m3 & -> & Hf3 & Hb3 & Hs3 & Hi3 & Hok3); [done..|by exists z, u, v|done|].
      exists m3. rewrite bind_S. split; [done|]. split; [done|]. split; [done|].
      split; [intros; by rewrite Hs3, Hs2|]. split; [done|]. intros d. destruct (Hok3 d) as (x & Hx & Hok).
      exists x. split; [done|]. eapply arcok_ext; [|done|exact Hok].
      intros b' mi' Htri'. split.
      + intros [(z' & ?)|[-> ->]]; [exists z'|exists z]; apply elem_of_app; [by left|right; constructor].
      + intros (z' & [?|[= -> -> ->]%elem_of_list_singleton]%elem_of_app); [left; eauto|by right].
    - rewrite bind_S. exists m'. split; [done|]. split; [done|]. split; [done|]. split; [done|]. split; [done|].
      intros d. destruct (Hok' d) as (x & Hx & Hok). exists x. split; [done|].
      eapply arcok_ext; [|done|exact Hok]. intros b mi (z & x' & y & ? & ? & Ht'). split; [done|]. intros _. exists z.
      destruct (up_arc_fun _ _ _ _ _ _ Ht Ht') as [-> ->]. by apply Hl.
  Qed.

  Record pinv (S : gset nat) (m : metric) : Prop := {
    pi_f : length (m_fwd m) = length (up_head c);
    pi_b : length (m_bwd m) = length (up_head c);
    pi_inf : forall d a x, dw m d a = Some x -> (x <= inf_weight)%N;
    pi_S : forall a, a ∈ S -> a < length (up_head c);
    pi_ok : forall d a u v x, up_arc c a u v -> a ∉ S -> dw m d a = Some x -> arcok m (fun _ _ => True) a u v d x }.

  (** The loop that pushes the tops of triangles. *)
  Lemma push_loop_ok {A} (l : list A) (top : A -> nat) (test : A -> option bool) f q S :
    sref (length (up_head c)) q S ->
    (forall x, x ∈ l -> top x < length (up_head c)) ->
    (forall x q, x ∈ l -> exists b, test x = Some b /\ f x q = (if (b : bool) then q' ← idset_push q (top x); Some (q', true) else Some (q, true))) ->
    exists q' S', for_until l f q = Some (q', true) /\ sref (length (up_head c)) q' S' /\ S ⊆ S' /\
      (forall a, a ∈ S' -> a ∈ S \/ exists x, x ∈ l /\ top x = a) /\
      (forall x, x ∈ l -> test x = Some true -> top x ∈ S').
  Proof.
    intros Hq Htop Hf.
    destruct (for_until_inv (fun pre q' => exists S', sref (length (up_head c)) q' S' /\ S ⊆ S' /\
      (forall a, a ∈ S' -> a ∈ S \/ exists x, x ∈ l /\ top x = a) /\
      (forall x, x ∈ pre -> test x = Some true -> top x ∈ S')) l f q) as (q' & -> & S' & H1 & H2 & H3 & H4).
    - exists S. split; [done|]. split; [done|]. split; [eauto|]. by intros ? ?%elem_of_nil.
    - intros pre x post q1 Hl (S1 & H1 & H2 & H3 & H4).
      assert (x ∈ l) as Hx by (rewrite Hl; apply elem_of_app; right; constructor).
      destruct (Hf x q1 Hx) as (b & Hb & ->). destruct b.
      + destruct (idset_push_spec _ _ _ (top x) H1) as (q2 & -> & Hq2); [eauto|]. rewrite bind_S.
        exists q2. split; [done|]. exists ({[top x]} ∪ S1). split; [done|]. split; [set_solver|]. split.
        * intros a [->%elem_of_singleton|Ha]%elem_of_union; eauto.
        * intros y [Hy| ->%elem_of_list_singleton]%elem_of_app Ht; [|set_solver]. apply elem_of_union. right. eauto.
      + exists q1. split; [done|]. exists S1. split; [done|]. split; [done|]. split; [done|].
        intros y [Hy| ->%elem_of_list_singleton]%elem_of_app Ht; [eauto|congruence].
    - exists q', S'. done.
  Qed.

  Lemma must_push_false a b c' d e f g h :
    (a <= inf_weight)%N -> (b <= inf_weight)%N -> (c' <= inf_weight)%N -> (d <= inf_weight)%N ->
    (g <= inf_weight)%N -> (h <= inf_weight)%N ->
    must_push a b c' d e f g h = false ->
    (a + b)%N <> e /\ (c' + d)%N <> f /\ (e <= a + g)%N /\ (f <= c' + h)%N.
  Proof.
    intros. unfold must_push in *. rewrite !add32_le in * by done.
    apply orb_false_iff in H5 as [[[H6%N.eqb_neq H7%N.eqb_neq]%orb_false_iff H8%N.ltb_ge]%orb_false_iff H9%N.ltb_ge]. done.
  Qed.

  Lemma partial_step_spec asserts q S m :
    sref (length (up_head c)) q S -> pinv S m -> S <> ∅ ->
    exists x q' S' m', partial_step asserts c w q m = Some (q', m') /\ set_min S x /\
      sref (length (up_head c)) q' S' /\ pinv S' m' /\ (forall a, a ∈ S' -> x < a).
  Proof.
    intros Hq P HS. unfold partial_step.
    destruct (idset_pop_spec asserts _ _ _ Hq HS) as (xy & q1 & -> & Hmin & Hq1). rewrite bind_S, bind_S.
    destruct (up_arc_exists _ _ _ _ WF xy) as (u & v & Hxy); [apply (pi_S _ _ P), Hmin|].
    pose proof (up_arc_lt _ _ _ _ WF _ _ _ Hxy) as Hl.
    assert (forall m d a, length (m_fwd m) = length (up_head c) -> length (m_bwd m) = length (up_head c) ->
      a < length (up_head c) -> exists x, dw m d a = Some x) as Hex.
    { intros m0 d a ? ? Ha. apply lookup_lt_is_Some_2. destruct d; lia. }
    destruct (Hex m true xy (pi_f _ _ P) (pi_b _ _ P) ltac:(lia)) as [of_ Hof].
    destruct (Hex m false xy (pi_f _ _ P) (pi_b _ _ P) ltac:(lia)) as [ob Hob].
    unfold dw in Hof, Hob. rewrite Hof, bind_S, Hob, bind_S. fold (dw m true xy) in Hof. fold (dw m false xy) in Hob.
    destruct (recompute m xy u v (pi_f _ _ P) (pi_b _ _ P) (pi_inf _ _ P) Hxy) as (m' & Hrec & Hf' & Hb' & Hs' & Hi' & Hok').
    rewrite !wr_Some in Hrec by (rewrite ?(pi_f _ _ P), ?(pi_b _ _ P); lia).
    rewrite !wr_Some by (rewrite ?(pi_f _ _ P), ?(pi_b _ _ P); lia). bs.
    destruct (extract_arc c w xy _) as [m1|] in Hrec |- *; [|done]. bs.
    destruct (forall_lower_triangles_of_arc c xy _ m1) as [[m2 go]|] in Hrec |- *; [|done]. bs.
    injection Hrec as ->.
    destruct (Hok' true) as (nf & Hnf & Hokf), (Hok' false) as (nb & Hnb & Hokb).
    unfold dw in Hnf, Hnb. rewrite Hnf, bind_S, Hnb, bind_S. fold (dw m' true xy) in Hnf. fold (dw m' false xy) in Hnb.
    assert (of_ <= inf_weight)%N by (by eapply (pi_inf _ _ P true)). assert (ob <= inf_weight)%N by (by eapply (pi_inf _ _ P false)).
    assert (nf <= inf_weight)%N by (by eapply (Hi' true)). assert (nb <= inf_weight)%N by (by eapply (Hi' false)).
    assert (forall d, exists old new, dw m d xy = Some old /\ dw m' d xy = Some new) as Hon by (intros []; eauto).
    case_decide as Hch.
    2:{ assert (of_ = nf /\ ob = nb) as [-> ->] by (destruct (decide (of_ = nf)), (decide (ob = nb)); naive_solver).
        assert (forall d a, dw m' d a = dw m d a) as Hs.
        { intros d a. destruct (decide (a = xy)) as [->|]; [|eauto]. destruct d; congruence. }
        exists xy, q1, (S ∖ {[xy]}), m'. split; [done|]. split; [done|]. split; [done|]. split.
        - split; [done..| |].
          + intros a Ha. apply (pi_S _ _ P). by apply elem_of_difference in Ha as [? _].
          + intros d a u' v' x Ha Hnin Hx. destruct (decide (a = xy)) as [->|Hne].
            * destruct (up_arc_fun _ _ _ _ _ _ Ha Hxy) as [-> ->].
              destruct (Hok' d) as (x' & Hx' & Hok). by simplify_eq.
            * rewrite Hs in Hx. eapply arcok_ext; [| |eapply (pi_ok _ _ P); [done| |done]]; [done|intros; by rewrite !Hs|].
              intros HaS. apply Hnin, elem_of_difference. split; [done|]. by apply not_elem_of_singleton.
        - intros a Ha. apply elem_of_difference in Ha as [Ha Hxa%not_elem_of_singleton]. assert (xy <= a) by (by apply Hmin). lia. }
    unfold forall_intermediate_triangles_of_arc, forall_upper_triangles_of_arc.
    rewrite (proj1 Hxy), !bind_S, (proj2 Hxy), !bind_S.
    destruct (intermediate_triangles_list _ _ _ _ WF u v xy Hxy) as (li & Hli & ->).
    destruct (upper_triangles_list _ _ _ _ WF u v xy Hxy) as (lu & Hlu & Hluf).
    set (V := fun d a => default 0%N (dw m' d a)).
    assert (forall d a, a < length (up_head c) -> dw m' d a = Some (V d a) /\ (V d a <= inf_weight)%N) as HV.
    { intros d a Ha. destruct (Hex m' d a Hf' Hb' Ha) as [x Hx]. unfold V. rewrite Hx. split; [done|]. cbn. eauto. }
    set (ti := fun p : nat * nat * nat => must_push (V false (fst (fst p))) of_ (V true (fst (fst p))) ob (V true (snd (fst p))) (V false (snd (fst p))) nf nb).
    set (tu := fun p : nat * nat * nat => must_push (V true (fst (fst p))) ob (V false (fst (fst p))) of_ (V true (snd (fst p))) (V false (snd (fst p))) nb nf).
    match goal with |- context [for_until li ?f q1] =>
      destruct (push_loop_ok li (fun p => snd (fst p)) (fun p => Some (ti p)) f q1 (S ∖ {[xy]}) Hq1) as (q2 & S2 & -> & Hq2 & Hsub2 & Hin2 & Hpush2) end.
    { intros [[b t] z] [Hb Ht]%Hli. by apply (up_arc_lt _ _ _ _ WF) in Ht as [? _]. }
    { intros [[b t] z] q0 [Hb Ht]%Hli. eexists. split; [done|]. cbn [fst snd]. unfold ti. cbn [fst snd].
      apply (up_arc_lt _ _ _ _ WF) in Ht as [? _], Hb as [? _].
      destruct (HV true b) as [E1 _]; [done|]. destruct (HV false b) as [E2 _]; [done|].
      destruct (HV true t) as [E3 _]; [done|]. destruct (HV false t) as [E4 _]; [done|].
      unfold dw in E1, E2, E3, E4. by rewrite E2, bind_S, E1, bind_S, E3, bind_S, E4, bind_S. }
    bs. cbv iota. bs. rewrite Hluf.
    match goal with |- context [for_until lu ?f q2] =>
      destruct (push_loop_ok lu (fun p => snd (fst p)) (fun p => Some (tu p)) f q2 S2 Hq2) as (q3 & S3 & -> & Hq3 & Hsub3 & Hin3 & Hpush3) end.
    { intros [[b t] z] [Hb Ht]%Hlu. by apply (up_arc_lt _ _ _ _ WF) in Ht as [? _]. }
    { intros [[b t] z] q0 [Hb Ht]%Hlu. eexists. split; [done|]. cbn [fst snd]. unfold tu. cbn [fst snd].
      apply (up_arc_lt _ _ _ _ WF) in Ht as [? _], Hb as [? _].
      destruct (HV true b) as [E1 _]; [done|]. destruct (HV false b) as [E2 _]; [done|].
      destruct (HV true t) as [E3 _]; [done|]. destruct (HV false t) as [E4 _]; [done|].
      unfold dw in E1, E2, E3, E4. by rewrite E1, bind_S, E2, bind_S, E3, bind_S, E4, bind_S. }
    rewrite bind_S. exists xy, q3, S3, m'. split; [done|]. split; [done|]. split; [done|].
    assert (forall a, a ∈ S3 -> a ∈ S ∖ {[xy]} \/ (a < length (up_head c) /\ xy < a)) as HS3.
    { intros a Ha. apply Hin3 in Ha as [Ha|([[b t] z] & [Hb Ht]%Hlu & <-)].
      - apply Hin2 in Ha as [Ha|([[b t] z] & [Hb Ht]%Hli & <-)]; [by left|right]. cbn.
        apply (up_arc_lt _ _ _ _ WF) in Hb as Hbb'. split; [by apply (up_arc_lt _ _ _ _ WF) in Ht as [? _]|].
        eapply (up_arc_tail_lt _ _ _ _ WF); [exact Hxy|exact Ht|lia].
      - right. cbn. split; [by apply (up_arc_lt _ _ _ _ WF) in Ht as [? _]|].
        eapply (up_arc_tail_lt _ _ _ _ WF); [exact Hxy|exact Ht|lia]. }
    split.
    2:{ intros a Ha. apply HS3 in Ha as [Ha|[_ ?]]; [|done].
        apply elem_of_difference in Ha as [Ha Hxa%not_elem_of_singleton]. assert (xy <= a) by (by apply Hmin). lia. }
    split; [done|done|done| |].
    { intros a Ha. apply HS3 in Ha as [Ha|[? _]]; [|done]. apply (pi_S _ _ P). by apply elem_of_difference in Ha as [? _]. }
    intros d a u' v' x Ha Hnin Hx. destruct (decide (a = xy)) as [->|Hne].
    { destruct (up_arc_fun _ _ _ _ _ _ Ha Hxy) as [-> ->].
      destruct (Hok' d) as (x' & Hx' & Hok). by simplify_eq. }
    assert (a ∉ S) as HninS.
    { intros HaS. apply Hnin, Hsub3, Hsub2, elem_of_difference. split; [done|]. by apply not_elem_of_singleton. }
    assert (dw m d a = Some x) as Hxm by (by rewrite <- Hs').
    destruct (pi_ok _ _ P d a u' v' x Ha HninS Hxm) as (Hk1 & Hk2 & Hk3 & Hk4).
    (* triangles of [a] that contain [xy] *)
    assert (forall b mi old new, lower_tri c b mi a -> mi = xy -> dw m d xy = Some old -> dw m' d xy = Some new ->
      (V (negb d) b + old)%N <> x /\ (x <= V (negb d) b + new)%N) as Hmid.
    { intros b mi old new (z & x1 & y & Hb & Hm & Ha') -> Hold Hnew.
      destruct (up_arc_fun _ _ _ _ _ _ Hm Hxy) as [-> ->]. destruct (up_arc_fun _ _ _ _ _ _ Ha Ha') as [-> ->].
      assert ((b, a, x1) ∈ li) as Hin by (by apply Hli).
      assert (ti (b, a, x1) = false) as Hti.
      { destruct (ti (b, a, x1)) eqn:E; [|done]. exfalso. apply Hnin, Hsub3. apply (Hpush2 _ Hin). by rewrite E. }
      unfold ti in Hti. cbn [fst snd] in Hti.
      apply (up_arc_lt _ _ _ _ WF) in Hb as [Hbl _], Ha as [Hal _].
      destruct (HV true b Hbl) as [_ ?], (HV false b Hbl) as [_ ?], (HV d a Hal) as [Hd _].
      apply must_push_false in Hti as (? & ? & ? & ?); [|done..]. destruct d; cbn [negb]; simplify_eq; done. }
    assert (forall b mi old new, lower_tri c b mi a -> b = xy -> dw m (negb d) xy = Some old -> dw m' (negb d) xy = Some new ->
      (old + V d mi)%N <> x /\ (x <= new + V d mi)%N) as Hbot.
    { intros b mi old new (z & x1 & y & Hb & Hm & Ha') -> Hold Hnew.
      destruct (up_arc_fun _ _ _ _ _ _ Hb Hxy) as [-> ->]. destruct (up_arc_fun _ _ _ _ _ _ Ha Ha') as [-> ->].
      assert ((mi, a, y) ∈ lu) as Hin by (by apply Hlu).
      assert (tu (mi, a, y) = false) as Htu.
      { destruct (tu (mi, a, y)) eqn:E; [|done]. exfalso. apply Hnin. apply (Hpush3 _ Hin). by rewrite E. }
      unfold tu in Htu. cbn [fst snd] in Htu.
      apply (up_arc_lt _ _ _ _ WF) in Hm as [Hbl _], Ha as [Hal _].
      destruct (HV true mi Hbl) as [_ ?], (HV false mi Hbl) as [_ ?], (HV d a Hal) as [Hd _].
      apply must_push_false in Htu as (? & ? & ? & ?); [|done..]. destruct d; cbn [negb] in *; simplify_eq; lia. }
    split; [done|]. split; [done|]. split.
    - intros b mi p q' Htri _ Hp Hq'. pose proof (lower_tri_lt _ _ _ _ WF _ _ _ Htri) as Hlt.
      destruct (decide (b = xy)) as [->|Hb]; [|destruct (decide (mi = xy)) as [->|Hm]].
      + destruct (Hon (negb d)) as (old & new & Hold & _).
        destruct (Hbot xy mi old p Htri eq_refl Hold Hp) as [_ ?]. unfold V in *. rewrite Hq' in *. done.
      + destruct (Hon d) as (old & new & Hold & _).
        destruct (Hmid b xy old q' Htri eq_refl Hold Hq') as [_ ?]. unfold V in *. rewrite Hp in *. done.
      + rewrite Hs' in Hp, Hq' by done. by eapply Hk3.
    - destruct Hk4 as [?|[?|(b & mi & p & q' & Htri & _ & Hp & Hq' & Hxpq)]]; [by left|by right; left|right; right].
      pose proof (lower_tri_lt _ _ _ _ WF _ _ _ Htri) as Hlt.
      destruct (decide (b = xy)) as [->|Hb]; [|destruct (decide (mi = xy)) as [->|Hm]].
      + exfalso. destruct (Hon (negb d)) as (old & new & _ & Hnew).
        destruct (Hbot xy mi p new Htri eq_refl Hp Hnew) as [Hn _]. apply Hn.
        rewrite <- Hs' in Hq' by lia. unfold V. by rewrite Hq'.
      + exfalso. destruct (Hon d) as (old & new & _ & Hnew).
        destruct (Hmid b xy q' new Htri eq_refl Hq' Hnew) as [Hn _]. apply Hn.
        rewrite <- Hs' in Hp by lia. unfold V. by rewrite Hp.
      + exists b, mi, p, q'. rewrite !Hs' by done. done.
  Qed.

  Lemma pinv_customized m : pinv ∅ m -> customized rt rh c w m.
  Proof.
    intros P. split; [apply P|apply P|apply P|..].
    - intros d a u v x e y Ha Hx He Hy. destruct (pi_ok _ _ P d a u v x Ha (not_elem_of_empty _) Hx) as (_ & H & _). eauto.
    - intros d b mi t x p q Htri Hx Hp Hq. pose proof Htri as (z & u & v & _ & _ & Ht).
      destruct (pi_ok _ _ P d t u v x Ht (not_elem_of_empty _) Hx) as (_ & _ & H & _). eauto.
    - intros d a u v x Ha Hx. destruct (pi_ok _ _ P d a u v x Ha (not_elem_of_empty _) Hx) as (_ & _ & _ & H).
      destruct H as [?|[?|(b & mi & p & q & ? & _ & ?)]]; [by left|by right; left|right; right]. eauto 10.
  Qed.

  Lemma partial_loop_spec asserts fuel k q S m :
    sref (length (up_head c)) q S -> pinv S m -> (forall a, a ∈ S -> k <= a) -> length (up_head c) <= k + fuel ->
    exists q' m', partial_loop asserts c w fuel q m = Some (q', m') /\ sref (length (up_head c)) q' ∅ /\ customized rt rh c w m'.
  Proof.
    revert k q S m. induction fuel as [|fuel IH]; intros k q S m Hq P Hk Hfuel; cbn [partial_loop];
      rewrite (idset_empty_spec _ _ _ Hq); (case_bool_decide as HS; [subst S|]).
    - exists q, m. split; [done|]. split; [done|]. by apply pinv_customized.
    - exfalso. apply set_choose_L in HS as [a Ha]. specialize (Hk a Ha). specialize (pi_S _ _ P a Ha). lia.
    - exists q, m. split; [done|]. split; [done|]. by apply pinv_customized.
    - destruct (partial_step_spec asserts q S m Hq P HS) as (x & q1 & S1 & m1 & -> & Hmin & Hq1 & P1 & Hgt).
      rewrite bind_S. apply (IH (Datatypes.S x) q1 S1); [done|done|intros; by apply Hgt|].
      assert (k <= x) by apply Hk, Hmin. lia.
  Qed.
End Partial.
