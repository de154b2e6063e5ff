(** The witness search: if it reports a path, there is one that avoids the contracted node. *)
From Verif Require Import Base IdQueueModel IdQueueSpec IdQueueProofs IdSetModel IdSetSpec IdSetProofs WalkSpec ChGraphModel ChGraphProofs.
Ltac Zify.zify_post_hook ::= idtac.

(** ** Walks *)
Lemma dw_refl E u : dist_walk E u u 0.
Proof. by left. Qed.
Lemma dw_arc (E : warcs) u v w : E u v w -> dist_walk E u v w.
Proof. intros H. right. exists 1. by constructor. Qed.
Lemma dw_app E u x v L M : dist_walk E u x L -> dist_walk E x v M -> dist_walk E u v (L + M)%N.
Proof.
  intros [[-> ->]|[k H]] H2; [done|]. destruct H2 as [[-> ->]|[l H2]].
  - rewrite N.add_0_r. right. by exists k.
  - right. exists (k + l). by eapply gw_app.
Qed.
Lemma dw_rev E u v L : dist_walk E u v L -> dist_walk (rev_arcs E) v u L.
Proof. intros [[-> ->]|[k H]]; [by left|right; exists k; by apply gw_rev]. Qed.
Lemma dw_rev' E u v L : dist_walk (rev_arcs E) v u L -> dist_walk E u v L.
Proof. intros [[-> ->]|[k H]]; [by left|right; exists k; by apply gw_rev']. Qed.
(** a walk is a sequence of arcs; replacing each arc by a walk that is not longer *)
Lemma dw_replace (E F : warcs) :
  (forall u v w, E u v w -> exists L, (L <= w)%N /\ dist_walk F u v L) ->
  forall u v L, dist_walk E u v L -> exists L', (L' <= L)%N /\ dist_walk F u v L'.
Proof.
  intros H u v L [[-> ->]|[k Hw]]; [exists 0%N; split; [done|by left]|].
  induction Hw as [u v w Hw|u x v w L k Hw _ _ (L' & HL & HF)]; [eauto|].
  destruct (H _ _ _ Hw) as (L1 & HL1 & H1). exists (L1 + L')%N. split; [lia|]. by eapply dw_app.
Qed.

(** ** One direction of the search *)
(** What holds of the data structures between searches. *)
Definition wsb (n : nat) (s : wside) : Prop :=
  length (ws_dist s) = n /\ exists m P, qref n (ws_queue s) m /\ fref n (ws_pushed s) P.
(** During a search from [s] in the graph [E] that avoids [byp]. *)
Record wsi_at (n : nat) (E : warcs) (s byp : nat) (ws : wside) (m : gmap nat N) (P : gset nat) : Prop := {
  wi_len : length (ws_dist ws) = n;
  wi_q : qref n (ws_queue ws) m;
  wi_f : fref n (ws_pushed ws) P;
  wi_lt : forall x, x ∈ P -> x < n /\ x <> byp;
  wi_m : forall x k, m !! x = Some k -> x ∈ P /\ ws_dist ws !! x = Some k;
  wi_walk : forall x d, x ∈ P -> ws_dist ws !! x = Some d -> exists L, (L <= d)%N /\ dist_walk E s x L;
  wi_mono : forall x y d k, x ∈ P -> m !! x = None -> ws_dist ws !! x = Some d -> m !! y = Some k -> (d <= k)%N }.
Definition wsi (n : nat) (E : warcs) (s byp : nat) (ws : wside) : Prop := exists m P, wsi_at n E s byp ws m P.

Lemma wsi_wsb n E s byp ws : wsi n E s byp ws -> wsb n ws.
Proof. intros (m & S & H). split; [by apply (wi_len _ _ _ _ _ _ _ H)|]. exists m, S. split; by destruct H. Qed.
Lemma wsi_mono n (E F : warcs) s byp ws :
  (forall u v L, dist_walk E u v L -> exists L', (L' <= L)%N /\ dist_walk F u v L') -> wsi n E s byp ws -> wsi n F s byp ws.
Proof.
  intros H (m & S & []). exists m, S. split; try done. intros x d Hx Hd.
  destruct (wi_walk0 x d Hx Hd) as (L & HL & Hw). destruct (H _ _ _ Hw) as (L' & HL' & Hw'). exists L'. split; [lia|done].
Qed.

Lemma wsb_new n : wsb n (new_wside n).
Proof. split; [apply replicate_length|]. exists ∅, ∅. split; [apply qref_new|apply fref_new]. Qed.

Lemma start_search_spec n E s byp ws : wsb n ws -> s < n -> s <> byp ->
  exists ws', start_search ws s = Some ws' /\ wsi n E s byp ws'.
Proof.
  intros (Hl & m & P & Hq & Hf) Hs Hne. unfold start_search.
  destruct (clear_spec _ _ _ Hq) as (q1 & -> & Hq1). rewrite bind_S.
  destruct (push_spec n q1 ∅ s 0 Hq1) as (q2 & -> & Hq2); [done|done|]. rewrite bind_S.
  rewrite (wr_Some (ws_dist ws)) by lia. rewrite bind_S.
  destruct (f_step_refines n (ws_pushed ws) P FResetAll Hf) as (f1 & E1 & Hf1); [done|]. cbn in E1. apply (inj Some) in E1. subst f1.
  destruct (f_step_refines n _ _ (FSet s) Hf1) as (f2 & E2 & Hf2); [done|]. cbn in E2. rewrite E2, bind_S.
  eexists. split; [done|]. exists (<[s:=0%N]> ∅), ({[s]} ∪ ∅). split; cbn [ws_dist ws_queue ws_pushed].
  - by rewrite insert_length.
  - done.
  - done.
  - intros x. rewrite elem_of_union, elem_of_singleton. intros [->|?]; [done|set_solver].
  - intros x k. rewrite lookup_insert_Some. intros [[<- <-]|[_ ?]]; [|by rewrite lookup_empty in *]. split; [set_solver|]. by rewrite list_lookup_insert by lia.
  - intros x d. rewrite elem_of_union, elem_of_singleton. intros [->|?]; [|set_solver]. rewrite list_lookup_insert by lia. intros [= <-].
    exists 0%N. split; [done|apply dw_refl].
  - intros x y d k. rewrite elem_of_union, elem_of_singleton. intros [->|?]; [|set_solver]. by rewrite lookup_insert.
Qed.

Lemma is_witness_spec n E s byp other x d len : wsi n E s byp other -> x < n ->
  exists b, is_witness other x d len = Some b /\
    (b = true -> exists L, (d + L <= len)%N /\ dist_walk E s x L).
Proof.
  intros (m & S & H) Hx. unfold is_witness. rewrite (is_set_spec n _ S) by (by destruct H). rewrite bind_S.
  case_bool_decide as Hin; [|by exists false].
  destruct (lookup_lt_is_Some_2 (ws_dist other) x) as [e He]; [rewrite (wi_len _ _ _ _ _ _ _ H); lia|]. rewrite He, bind_S.
  eexists. split; [done|]. intros Hle%bool_decide_eq_true.
  destruct (wi_walk _ _ _ _ _ _ _ H x e) as (L & HL & Hw); [done..|]. exists L. split; [lia|done].
Qed.

(** The same while the arcs of a node removed with [key] are relaxed. *)
Definition wst (n : nat) (E : warcs) (s byp : nat) (key : N) (ws : wside) : Prop :=
  exists m P, wsi_at n E s byp ws m P /\
    (forall y d, y ∈ P -> m !! y = None -> ws_dist ws !! y = Some d -> (d <= key)%N) /\
    (forall y k, m !! y = Some k -> (key <= k)%N).
Lemma wst_wsi n E s byp key ws : wst n E s byp key ws -> wsi n E s byp ws.
Proof. intros (m & P & H & _). by exists m, P. Qed.

Section settle.
  Variables (n : nat) (E E' : warcs) (s s' byp : nat) (other : wside) (len : N).
  Hypothesis Hother : wsi n E' s' byp other.
  Let hit := exists x L1 L2, dist_walk E s x L1 /\ dist_walk E' s' x L2 /\ (L1 + L2 <= len)%N.

  Lemma hit_intro x d b : (exists L, (L <= d)%N /\ dist_walk E s x L) ->
    (b = true -> exists L, (d + L <= len)%N /\ dist_walk E' s' x L) -> b = true -> hit.
  Proof.
    intros (L1 & HL1 & H1) Hb ->. destruct Hb as (L2 & HL2 & H2); [done|]. exists x, L1, L2. split; [done|]. split; [done|]. lia.
  Qed.

  (** the state after the distance of [x] has been set to [d] *)
  Lemma wst_set key ws m P x d q f :
    wsi_at n E s byp ws m P ->
    (forall y d, y ∈ P -> m !! y = None -> ws_dist ws !! y = Some d -> (d <= key)%N) ->
    (forall y k, m !! y = Some k -> (key <= k)%N) ->
    x < n -> x <> byp -> (key <= d)%N -> (exists L, (L <= d)%N /\ dist_walk E s x L) ->
    qref n q (<[x:=d]> m) -> fref n f ({[x]} ∪ P) ->
    wst n E s byp key (mkWside (<[x:=d]> (ws_dist ws)) q f).
  Proof.
    intros [Hl Hq Hf Hlt Hm Hwk Hmo] Hk1 Hk2 Hx Hb Hd Hw Hq' Hf'.
    assert (forall y d0, y ∈ {[x]} ∪ P -> <[x:=d]> m !! y = None -> <[x:=d]> (ws_dist ws) !! y = Some d0 -> (d0 <= key)%N) as Hpop.
    { intros y d0 Hy Hmy Hd0. destruct (decide (x = y)) as [<-|Hne]; [by rewrite lookup_insert in Hmy|].
      rewrite lookup_insert_ne in Hmy by done. rewrite list_lookup_insert_ne in Hd0 by done. apply elem_of_union in Hy as [->%elem_of_singleton|Hy]; [done|eauto]. }
    assert (forall y k, <[x:=d]> m !! y = Some k -> (key <= k)%N) as Hkeys.
    { intros y k [[<- <-]|[_ Hy]]%lookup_insert_Some; [done|eauto]. }
    exists (<[x:=d]> m), ({[x]} ∪ P). split; [|done]. split; cbn [ws_dist ws_queue ws_pushed].
    - by rewrite insert_length.
    - done.
    - done.
    - intros y [->%elem_of_singleton|Hy]%elem_of_union; [done|auto].
    - intros y k [[<- <-]|[Hne Hy]]%lookup_insert_Some.
      + split; [set_solver|]. apply list_lookup_insert. lia.
      + destruct (Hm y k Hy) as [? Hdy]. split; [set_solver|]. by rewrite list_lookup_insert_ne.
    - intros y d0 Hy. destruct (decide (x = y)) as [<-|Hne].
      + rewrite list_lookup_insert by lia. intros [= <-]. done.
      + rewrite list_lookup_insert_ne by done. apply elem_of_union in Hy as [->%elem_of_singleton|Hy]; [done|]. by apply Hwk.
    - intros y y2 d0 k Hy Hmy Hd0 Hk. specialize (Hpop y d0 Hy Hmy Hd0). specialize (Hkeys y2 k Hk). lia.
  Qed.

  (** relaxing an arc of the node [u] with distance [key] that has just been removed *)
  Lemma relax_witness_spec u key a ws found :
    wst n E s byp key ws -> ga_node a < n ->
    (ga_node a <> byp -> E u (ga_node a) (ga_weight a)) ->
    (exists L, (L <= key)%N /\ dist_walk E s u L) ->
    (found = true -> hit) ->
    exists ws' found', relax_witness other byp len key a (ws, found) = Some (ws', found') /\ wst n E s byp key ws' /\
      (found' = true -> hit).
  Proof.
    intros Hws Hx HE Hu Hfound. unfold relax_witness. set (x := ga_node a) in *.
    destruct (decide (x = byp)) as [|Hb]; [eexists _, _; split; [done|]; by split_and!|].
    cbv zeta. set (d := (key + ga_weight a)%N). destruct Hws as (m & P & Hw & Hk1 & Hk2). pose proof Hw as [Hl Hq Hf Hlt Hm Hwk Hmo].
    rewrite (is_set_spec n _ P) by done. rewrite bind_S.
    assert (exists L, (L <= d)%N /\ dist_walk E s x L) as Hwd.
    { destruct Hu as (L & HL & HuL). exists (L + ga_weight a)%N. split; [lia|]. eapply dw_app; [done|]. apply dw_arc. auto. }
    destruct (is_witness_spec n E' s' byp other x d len Hother Hx) as (b & Eb & Hb').
    pose proof (hit_intro x d b Hwd Hb') as Hhit.
    assert (forall fd, (fd = true -> hit) -> fd || b = true -> hit) as Hor by (intros [] ?; cbn; auto).
    case_bool_decide as Hin.
    - destruct (lookup_lt_is_Some_2 (ws_dist ws) x) as [old Hold]; [lia|]. rewrite Hold, bind_S.
      destruct (decide (d < old)%N) as [Hlt2|].
      2:{ eexists _, _. split; [done|]. split; [|done]. by exists m, P. }
      destruct (m !! x) as [k0|] eqn:Hmx.
      2:{ specialize (Hk1 x old Hin Hmx Hold). lia. }
      destruct (decrease_key_spec n _ m x d k0 Hq Hmx) as (q' & -> & Hq'). rewrite bind_S.
      destruct (Hm x k0 Hmx) as [_ Hk0]. assert (k0 = old) as -> by congruence. rewrite decide_True in Hq' by done.
      rewrite (wr_Some (ws_dist ws)) by lia. rewrite bind_S, Eb, bind_S. eexists _, _. split; [done|]. split; [|by apply Hor].
      eapply wst_set; [done|done|done|done|done|lia|done|done|]. replace ({[x]} ∪ P) with P by set_solver. done.
    - destruct (f_step_refines n _ _ (FSet x) Hf) as (f2 & E2 & Hf2); [done|]. cbn in E2. rewrite E2, bind_S.
      rewrite (wr_Some (ws_dist ws)) by lia. rewrite bind_S.
      assert (m !! x = None) as Hmx. { destruct (m !! x) as [k|] eqn:Hk; [|done]. by destruct (Hm x k Hk). }
      destruct (push_spec n _ m x d Hq) as (q2 & -> & Hq2); [done|done|]. rewrite bind_S, Eb, bind_S.
      eexists _, _. split; [done|]. split; [|by apply Hor]. eapply wst_set; [done|done|done|done|done|lia|done|done|done].
  Qed.

  Lemma witness_settle_spec adj ws :
    wsi n E s byp ws -> q_empty (ws_queue ws) = false -> length adj = n ->
    (forall x l a, adj !! x = Some l -> a ∈ l -> ga_node a < n /\ (x <> byp -> ga_node a <> byp -> E x (ga_node a) (ga_weight a))) ->
    exists ws' found, witness_settle adj other byp len ws = Some (ws', found) /\ wsi n E s byp ws' /\ (found = true -> hit).
  Proof.
    intros (m & P & Hw) Hne Hadj HE. pose proof Hw as [Hl Hq Hf Hlt Hm Hwk Hmo]. unfold witness_settle.
    rewrite (q_empty_spec n _ m Hq) in Hne. apply bool_decide_eq_false in Hne.
    destruct (pop_spec n _ m Hq Hne) as (x & key & q' & -> & [Hmin1 Hmin2] & Hq'). rewrite bind_S.
    destruct (Hm x key Hmin1) as [Hxp Hxd]. destruct (Hlt x Hxp) as [Hxn Hxb]. rewrite Hxd, bind_S.
    rewrite bool_decide_eq_true_2 by done. cbn [chk]. rewrite bind_S, (is_set_spec n _ P) by done. rewrite bind_S.
    rewrite bool_decide_eq_true_2 by done. cbn [chk]. rewrite bind_S. cbv zeta.
    assert (wst n E s byp key (mkWside (ws_dist ws) q' (ws_pushed ws))) as Hst.
    { assert (forall y k, delete x m !! y = Some k -> (key <= k)%N) as Hkeys.
      { intros y k [_ Hy]%lookup_delete_Some. by eapply Hmin2. }
      assert (forall y d, y ∈ P -> delete x m !! y = None -> ws_dist ws !! y = Some d -> (d <= key)%N) as Hpop.
      { intros y d Hy Hmy Hd. destruct (decide (x = y)) as [<-|Hn]; [rewrite Hxd in Hd; simplify_eq; lia|].
        rewrite lookup_delete_ne in Hmy by done. by eapply Hmo. }
      exists (delete x m), P. split; [|done]. split; cbn [ws_dist ws_queue ws_pushed]; try done.
      - intros y k [_ Hy]%lookup_delete_Some. auto.
      - intros y y2 d k Hy Hmy Hd Hk. specialize (Hpop y d Hy Hmy Hd). specialize (Hkeys y2 k Hk). lia. }
    destruct (is_witness_spec n E' s' byp other x key len Hother Hxn) as (b & -> & Hb'). rewrite bind_S.
    pose proof (hit_intro x key b (Hwk x key Hxp Hxd) Hb') as Hhit.
    destruct b; [eexists _, _; split; [done|]; split; [by eapply wst_wsi|auto]|].
    destruct (lookup_lt_is_Some_2 adj x) as [l Hlx]; [lia|]. rewrite Hlx, bind_S.
    destruct (for_each_inv
      (fun _ '(ws, found) => wst n E s byp key ws /\ (found = true -> hit))
      (relax_witness other byp len key) l (mkWside (ws_dist ws) q' (ws_pushed ws), false)) as ([ws' found] & -> & Hws' & Hf').
    - split; [done|done].
    - intros pre a post [ws1 fd] Hsp [H1 H2]. assert (a ∈ l) as Ha by (rewrite Hsp; apply elem_of_app; right; by left). destruct (HE x l a Hlx Ha) as [Han HEa].
      destruct (relax_witness_spec x key a ws1 fd) as (ws2 & fd2 & -> & H3 & H4); [done|done|auto|by apply Hwk|done|]. by eexists.
    - eexists _, _. split; [done|]. split; [by eapply wst_wsi|done].
  Qed.
End settle.

(** ** The bidirectional search *)
(** The graph without the contracted node. *)
Definition gaw (g : chgraph) : warcs := fun u v w => exists h m, gf g u v = Some (w, h, m).
Definition avoid (byp : nat) (E : warcs) : warcs := fun u v w => u <> byp /\ v <> byp /\ E u v w.

Lemma out_arcs n g byp x l a : gok n g -> g_out g !! x = Some l -> a ∈ l ->
  ga_node a < n /\ (x <> byp -> ga_node a <> byp -> avoid byp (gaw g) x (ga_node a) (ga_weight a)).
Proof.
  intros Hg Hl Ha. assert (gf g x (ga_node a) = Some (val a)) as Hf.
  { rewrite (fo_lookup _ _ _ _ Hl). apply lkup_elem; [by eapply gk_nd_out|done]. }
  split; [apply (gok_lt n g _ _ _ Hg Hf)|]. intros. split; [done|]. split; [done|]. by eexists _, _.
Qed.
Lemma in_arcs n g byp x l a : gok n g -> g_in g !! x = Some l -> a ∈ l ->
  ga_node a < n /\ (x <> byp -> ga_node a <> byp -> rev_arcs (avoid byp (gaw g)) x (ga_node a) (ga_weight a)).
Proof.
  intros Hg Hl Ha. assert (gf g (ga_node a) x = Some (val a)) as Hf.
  { rewrite (gk_mirror n g Hg), (fo_lookup _ _ _ _ Hl). apply lkup_elem; [by eapply gk_nd_in|done]. }
  split; [apply (gok_lt n g _ _ _ Hg Hf)|]. intros. split; [done|]. split; [done|]. by eexists _, _.
Qed.

Lemma witness_loop_spec n g byp len s t :
  gok n g ->
  forall k f b, wsi n (avoid byp (gaw g)) s byp f -> wsi n (rev_arcs (avoid byp (gaw g))) t byp b ->
  exists f' b' r, witness_loop g byp len k f b = Some (f', b', r) /\
    wsi n (avoid byp (gaw g)) s byp f' /\ wsi n (rev_arcs (avoid byp (gaw g))) t byp b' /\
    (r = true -> exists L, (L <= len)%N /\ dist_walk (avoid byp (gaw g)) s t L).
Proof.
  intros Hg k. induction k as [|k IH]; intros f b Hf Hb; cbn [witness_loop].
  all: destruct (q_empty (ws_queue f)) eqn:Ef; cbn [orb]; [eexists _, _, _; by split_and!|].
  all: destruct (q_empty (ws_queue b)) eqn:Eb; [eexists _, _, _; by split_and!|].
  all: assert (exists p, peek (ws_queue f) = Some p) as [pf ->] by
    (destruct Hf as (m & P & [? Hq]); rewrite (q_empty_spec n _ m Hq) in Ef; apply bool_decide_eq_false in Ef;
     destruct (root_min n _ m Hq Ef) as (id & ky & Hh & _ & Hs); unfold peek, q_empty; rewrite bool_decide_eq_false_2 by lia; cbn; eauto).
  all: assert (exists p, peek (ws_queue b) = Some p) as [pb ->] by
    (destruct Hb as (m & P & [? Hq]); rewrite (q_empty_spec n _ m Hq) in Eb; apply bool_decide_eq_false in Eb;
     destruct (root_min n _ m Hq Eb) as (id & ky & Hh & _ & Hs); unfold peek, q_empty; rewrite bool_decide_eq_false_2 by lia; cbn; eauto).
  all: rewrite !bind_S; destruct (decide (len < snd pf + snd pb)%N); [eexists _, _, _; by split_and!|].
  all: assert (exists f' b' found,
      (if decide (snd pf <= snd pb)%N
       then '(f, found) ← witness_settle (g_out g) b byp len f; Some (f, b, found)
       else '(b, found) ← witness_settle (g_in g) f byp len b; Some (f, b, found)) = Some (f', b', found) /\
      wsi n (avoid byp (gaw g)) s byp f' /\ wsi n (rev_arcs (avoid byp (gaw g))) t byp b' /\
      (found = true -> exists L, (L <= len)%N /\ dist_walk (avoid byp (gaw g)) s t L)) as (f' & b' & found & -> & Hf' & Hb' & Hfound) by
    (destruct (decide (snd pf <= snd pb)%N);
     [destruct (witness_settle_spec n (avoid byp (gaw g)) (rev_arcs (avoid byp (gaw g))) s t byp b len Hb (g_out g) f)
        as (f' & found & -> & Hf' & Hfd); [done|done|by apply gk_out|intros; by eapply out_arcs|];
      rewrite bind_S; eexists _, _, _; split; [done|]; split; [done|]; split; [done|];
      intros Hfound; destruct (Hfd Hfound) as (x & L1 & L2 & H1 & H2%dw_rev' & HL); exists (L1 + L2)%N; split; [done|by eapply dw_app]
     |destruct (witness_settle_spec n (rev_arcs (avoid byp (gaw g))) (avoid byp (gaw g)) t s byp f len Hf (g_in g) b)
        as (b' & found & -> & Hb' & Hfd); [done|done|by apply gk_in|intros; by eapply in_arcs|];
      rewrite bind_S; eexists _, _, _; split; [done|]; split; [done|]; split; [done|];
      intros Hfound; destruct (Hfd Hfound) as (x & L1 & L2 & H1%dw_rev' & H2 & HL); exists (L2 + L1)%N; split; [lia|by eapply dw_app]]).
  all: rewrite bind_S; destruct found; [eexists _, _, _; by split_and!|].
  - eexists _, _, _; by split_and!.
  - by apply IH.
Qed.

(** The state of the test after [pin_source s node]. *)
Definition pinned (n : nat) (g : chgraph) (node s : nat) (t : wtest) : Prop :=
  wt_bypass t = node /\ wsi n (avoid node (gaw g)) s node (wt_fwd t) /\ wsb n (wt_bwd t).
Definition wtb (n : nat) (t : wtest) : Prop := wsb n (wt_fwd t) /\ wsb n (wt_bwd t).
Lemma pinned_wtb n g node s t : pinned n g node s t -> wtb n t.
Proof. intros (_ & H & ?). split; [by eapply wsi_wsb|done]. Qed.
Lemma wtb_new n : wtb n (new_wtest n).
Proof. split; apply wsb_new. Qed.

Lemma pin_source_spec n g t s node : wtb n t -> s < n -> s <> node ->
  exists t', pin_source t s node = Some t' /\ pinned n g node s t'.
Proof.
  intros [Hf Hb] Hs Hne. unfold pin_source. destruct (start_search_spec n (avoid node (gaw g)) s node _ Hf Hs Hne) as (f & -> & Hf').
  rewrite bind_S. eexists. split; [done|]. done.
Qed.

Lemma shorter_spec n g max_pop t s node target len :
  gok n g -> pinned n g node s t -> target < n -> target <> node ->
  exists r t', does_shorter_or_equal_path_to_target_exist g max_pop t target len = Some (r, t') /\ pinned n g node s t' /\
    (r = true -> exists L, (L <= len)%N /\ dist_walk (avoid node (gaw g)) s target L).
Proof.
  intros Hg (Hby & Hf & Hb) Ht Hne. unfold does_shorter_or_equal_path_to_target_exist.
  destruct (start_search_spec n (rev_arcs (avoid node (gaw g))) target node _ Hb Ht Hne) as (b & -> & Hb'). rewrite bind_S.
  pose proof Hf as (m & P & [Hl Hq Hfl Hlt Hm Hwk Hmo]). rewrite (is_set_spec n _ P) by done. rewrite bind_S.
  assert (exists hit, (if bool_decide (target ∈ P) then d ← ws_dist (wt_fwd t) !! target; Some (bool_decide (d <= len)%N) else Some false) = Some hit /\
     (hit = true -> exists L, (L <= len)%N /\ dist_walk (avoid node (gaw g)) s target L)) as (hit & -> & Hhit).
  { case_bool_decide as Hin; [|by exists false]. destruct (lookup_lt_is_Some_2 (ws_dist (wt_fwd t)) target) as [d Hd]; [lia|].
    rewrite Hd, bind_S. eexists. split; [done|]. intros Hle%bool_decide_eq_true.
    destruct (Hwk target d Hin Hd) as (L & HL & HwL). exists L. split; [lia|done]. }
  rewrite bind_S. destruct hit.
  { eexists _, _. split; [done|]. split; [|auto]. split; [done|]. split; [done|]. by eapply wsi_wsb. }
  rewrite Hby. destruct (witness_loop_spec n g node len s target Hg max_pop _ _ Hf Hb') as (f' & b' & r & -> & Hf' & Hb2 & Hr).
  rewrite bind_S. eexists _, _. split; [done|]. split; [|done]. split; [done|]. split; [done|]. by eapply wsi_wsb.
Qed.
