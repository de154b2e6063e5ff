(** Pinned queries: the selection of nodes, the search without stalling and the sweep. *)
From Verif Require Import Base UtilSpec GraphSpec IdQueueModel IdQueueSpec IdQueueProofs IdSetModel IdSetSpec IdSetProofs ChCleanSpec ChBuildModel ChSpec ChQueryModel ChSearchProofs ChRunProofs ChUnpackProofs WalkSpec.
Ltac Zify.zify_post_hook ::= idtac.

(** ** Selecting *)
Definition increasing (l : list nat) : Prop := forall i j x y, i < j -> l !! i = Some x -> l !! j = Some y -> x < y.
Lemma increasing_NoDup l : increasing l -> NoDup l.
Proof.
  intros H. apply NoDup_alt. intros i j x Hi Hj. destruct (lt_eq_lt_dec i j) as [[Hlt|]|Hlt]; [|done|].
  - specialize (H i j x x Hlt Hi Hj). lia.
  - specialize (H j i x x Hlt Hj Hi). lia.
Qed.
Lemma NoDup_lt_length n (l : list nat) : NoDup l -> (forall x, x ∈ l -> x < n) -> length l <= n.
Proof.
  intros Hnd Hlt. rewrite <- (seq_length n 0). apply submseteq_length, NoDup_submseteq; [done|].
  intros x Hx. apply elem_of_seq. specialize (Hlt x Hx). lia.
Qed.
Lemma increasing_snoc l x : increasing l -> (forall y, y ∈ l -> y < x) -> increasing (l ++ [x]).
Proof.
  intros H Hx i j a b Hij Ha Hb. apply lookup_app_Some in Hb as [Hb|[Hl Hb]].
  - rewrite lookup_app_l in Ha by (apply lookup_lt_Some in Hb; lia). by eapply H.
  - assert (j = length l) as ->. { apply lookup_lt_Some in Hb. cbn in Hb. lia. }
    rewrite Nat.sub_diag in Hb. cbn in Hb. injection Hb as <-.
    rewrite lookup_app_l in Ha by lia. apply Hx. by eapply elem_of_list_lookup_2.
Qed.

Definition id_keys (n : nat) (Q : gmap nat N) : Prop := forall x k, Q !! x = Some k -> x < n /\ k = N.of_nat x.

Lemma push_new_ok n q Q y :
  qref n q Q -> id_keys n Q -> y < n ->
  exists q' Q', push_new q y = Some q' /\ qref n q' Q' /\ id_keys n Q' /\ dom Q' = {[y]} ∪ dom Q.
Proof.
  intros Hq Hk Hy. unfold push_new. rewrite (contains_id_spec _ _ _ _ Hq) by done. rewrite bind_S.
  case_bool_decide as Hin.
  - exists q, Q. split; [done|]. split; [done|]. split; [done|]. apply elem_of_dom in Hin. set_solver.
  - assert (Q !! y = None) as HQ by (by apply eq_None_not_Some).
    destruct (push_spec _ _ _ y (N.of_nat y) Hq Hy HQ) as (q' & -> & Hq'). exists q', (<[y:=N.of_nat y]> Q).
    split; [done|]. split; [done|]. split; [|by rewrite dom_insert_L].
    intros x k Hx. destruct (decide (x = y)) as [->|Hne].
    + rewrite lookup_insert in Hx. injection Hx as <-. done.
    + rewrite lookup_insert_ne in Hx by done. by apply Hk.
Qed.

(** [out] has been popped, [Q] is in the queue. *)
Record pin_state (n : nat) (g : chside) (T : gset nat) (out : list nat) (Q : gmap nat N) (select : list N) : Prop := {
  ps_len : length select = n;
  ps_keys : id_keys n Q;
  ps_inc : increasing out;
  ps_lt : forall x, x ∈ out -> x < n;
  ps_above : forall x y, x ∈ out -> y ∈ dom Q -> x < y;
  ps_closed : forall a x y w, x ∈ out -> sarc g a x y w -> y ∈ out \/ y ∈ dom Q;
  ps_start : forall x, x ∈ T -> x ∈ out \/ x ∈ dom Q;
  ps_select : forall i x, out !! i = Some x -> select !! i = Some (N.of_nat x) }.

Lemma pin_loop_ok n g T : side_ok n g -> forall fuel q Q select out,
  qref n q Q -> pin_state n g T out Q select -> n < fuel + length out ->
  exists q' select' out', pin_loop g fuel q select (length out) = Some (q', select', length out') /\
    qref n q' ∅ /\ pin_state n g T out' ∅ select'.
Proof.
  intros Hg. induction fuel as [|fuel IH]; intros q Q select out Hq H Hfuel.
  { pose proof (NoDup_lt_length n out (increasing_NoDup _ (ps_inc _ _ _ _ _ _ H)) (ps_lt _ _ _ _ _ _ H)). lia. }
  cbn [pin_loop]. rewrite (q_empty_spec _ _ _ Hq). case_bool_decide as HQ.
  { subst Q. exists q, select, out. done. }
  destruct (pop_spec _ _ _ Hq HQ) as (x & key & q1 & -> & (Hx & Hmin) & Hq1). rewrite bind_S. cbv beta iota.
  destruct (ps_keys _ _ _ _ _ _ H x key Hx) as [Hxn ->].
  assert (length out < n) as Hout.
  { assert (length (out ++ [x]) <= n) as Hl; [|rewrite app_length in Hl; cbn in Hl; lia].
    apply NoDup_lt_length.
    - apply increasing_NoDup, increasing_snoc; [apply H|]. intros y Hy. eapply (ps_above _ _ _ _ _ _ H); [done|]. apply elem_of_dom. eauto.
    - intros y [Hy|Hy%elem_of_list_singleton]%elem_of_app; [by apply (ps_lt _ _ _ _ _ _ H)|by subst]. }
  rewrite (wr_Some select) by (rewrite (ps_len _ _ _ _ _ _ H); done). rewrite bind_S.
  destruct (csr_range _ _ _ _ (so_csr _ _ Hg) Hxn) as (lo & hi & Hlo & Hhi & Hle).
  rewrite Hlo, bind_S, Hhi, bind_S.
  assert (id_keys n (delete x Q)) as Hkd.
  { intros y k (_ & Hy)%lookup_delete_Some. by apply (ps_keys _ _ _ _ _ _ H). }
  destruct (for_range_inv (fun i q' => exists Q', qref n q' Q' /\ id_keys n Q' /\ dom (delete x Q) ⊆ dom Q' /\
      (forall y, y ∈ dom Q' -> x < y) /\ forall a y w, lo <= a < i -> sarc g a x y w -> y ∈ dom Q')
    (fun xy q => y ← cs_head g !! xy; _ ← chk (bool_decide (x < y)); push_new q y) lo hi q1) as (q2 & E & Q2 & Hq2 & Hk2 & Hsub & Habove & Hclosed); [lia| | |].
  - exists (delete x Q). split; [done|]. split; [done|]. split; [done|]. split; [|lia].
    intros y (k & (Hne & Hy)%lookup_delete_Some)%elem_of_dom. specialize (Hmin y k Hy).
    destruct (ps_keys _ _ _ _ _ _ H y k Hy) as [_ ->]. lia.
  - intros a q' Ha (Q' & Hq' & Hk' & Hsub' & Hab' & Hcl').
    destruct (arc_at n g Hg x lo hi a Hxn Hlo Hhi Ha) as (y & w & Hy & Hw & Harc).
    pose proof (so_up _ _ Hg _ _ _ _ Harc) as Hxy. destruct (sarc_lt _ _ _ _ _ _ Hg Harc) as [_ Hyn].
    rewrite Hy, bind_S. rewrite bool_decide_eq_true_2 by done. cbn [chk]. rewrite bind_S.
    destruct (push_new_ok n q' Q' y Hq' Hk' Hyn) as (q'' & Q'' & -> & Hq'' & Hk'' & Hdom).
    exists q''. split; [done|]. exists Q''. rewrite Hdom. split; [done|]. split; [done|]. split; [set_solver|]. split.
    + intros z [->%elem_of_singleton|Hz]%elem_of_union; [done|by apply Hab'].
    + intros a' y' w' Ha' Harc'. destruct (decide (a' = a)) as [->|Hne].
      * destruct Harc' as (_ & Hy' & _). assert (y' = y) as -> by congruence. set_solver.
      * apply elem_of_union_r. eapply Hcl'; [|done]. lia.
  - rewrite E, bind_S. replace (S (length out)) with (length (out ++ [x])) by (rewrite app_length; cbn; lia).
    eapply (IH q2 Q2 _ (out ++ [x])); [done| |rewrite app_length; cbn; lia].
    split.
    + rewrite insert_length. apply H.
    + done.
    + apply increasing_snoc; [apply H|]. intros y Hy. eapply (ps_above _ _ _ _ _ _ H); [done|]. apply elem_of_dom. eauto.
    + intros y [Hy|Hy%elem_of_list_singleton]%elem_of_app; [by apply (ps_lt _ _ _ _ _ _ H)|by subst].
    + intros y z [Hy|Hy%elem_of_list_singleton]%elem_of_app Hz; [|subst; by apply Habove].
      pose proof (ps_above _ _ _ _ _ _ H y x Hy ltac:(apply elem_of_dom; eauto)). specialize (Habove z Hz). lia.
    + intros a y z w [Hy|Hy%elem_of_list_singleton]%elem_of_app Harc.
      * destruct (ps_closed _ _ _ _ _ _ H a y z w Hy Harc) as [Hz|Hz]; [left; by apply elem_of_app; left|].
        destruct (decide (z = x)) as [->|Hne]; [left; apply elem_of_app; right; by apply elem_of_list_singleton|].
        right. apply Hsub. rewrite dom_delete_L. set_solver.
      * subst y. right. eapply Hclosed; [|done]. destruct Harc as ((lo' & hi' & ? & ? & ?) & _). simplify_eq. done.
    + intros y Hy. destruct (ps_start _ _ _ _ _ _ H y Hy) as [Hz|Hz]; [left; by apply elem_of_app; left|].
      destruct (decide (y = x)) as [->|Hne]; [left; apply elem_of_app; right; by apply elem_of_list_singleton|].
      right. apply Hsub. rewrite dom_delete_L. set_solver.
    + intros i y Hi. apply lookup_app_Some in Hi as [Hi|[Hl Hi]].
      * rewrite list_lookup_insert_ne by (apply lookup_lt_Some in Hi; lia). by apply (ps_select _ _ _ _ _ _ H).
      * assert (i = length out) as ->. { apply lookup_lt_Some in Hi. cbn in Hi. lia. }
        rewrite Nat.sub_diag in Hi. cbn in Hi. injection Hi as <-.
        apply list_lookup_insert. by rewrite (ps_len _ _ _ _ _ _ H).
Qed.

(** The members of a direction have the right sizes. *)
Record side_shape (n : nat) (s : cside) : Prop := {
  sh_d : length (s_dist s) = n; sh_n : length (s_pnode s) = n; sh_a : length (s_parc s) = n;
  sh_f : exists P, fref n (s_pushed s) P; sh_q : exists Q, qref n (s_queue s) Q }.

(** [sel]: the nodes above the pinned nodes [l] (external ids), highest first. *)
Record pinned (n : nat) (c : ch) (g : chside) (l : list nat) (cnt : nat) (s : cside) (sel : list nat) : Prop := {
  pn_shape : side_shape n s;
  pn_len : length sel = cnt;
  pn_dec : increasing (rev sel);
  pn_lt : forall x, x ∈ sel -> x < n;
  pn_closed : forall a x y w, x ∈ sel -> sarc g a x y w -> y ∈ sel;
  pn_sel : forall i x, sel !! i = Some x -> s_dist s !! i = Some (N.of_nat x);
  pn_list : forall i t x, l !! i = Some t -> ch_rank c !! t = Some x -> s_pnode s !! i = Some (Some x) /\ x ∈ sel }.

Lemma pin_ok n c g l s :
  side_ok n g -> perm (ch_rank c) -> length (ch_rank c) = n -> side_shape n s -> qref n (s_queue s) ∅ ->
  Forall (fun t => t < n) l -> length l <= n ->
  exists s' cnt sel, pin c g l s = Some (s', cnt) /\ pinned n c g l cnt s' sel.
Proof.
  intros Hg Hperm Hrl Hsh Hq Hl Hll. unfold pin.
  destruct (for_range_inv (fun i '(tl, q) => length tl = n /\ exists Q, qref n q Q /\ id_keys n Q /\
      (forall j t x, j < i -> l !! j = Some t -> ch_rank c !! t = Some x -> tl !! j = Some (Some x) /\ x ∈ dom Q))
    (fun i '(tl, q) => t ← l !! i; x ← ch_rank c !! t; tl ← wr tl i (Some x); q ← push_new q x; Some (tl, q))
    0 (length l) (s_pnode s, s_queue s)) as ((tl & q) & E & Htl & Q & HQ & Hk & Hlist); [lia| | |].
  - split; [apply Hsh|]. exists ∅. split; [done|]. split; [intros x k Hx; by rewrite lookup_empty in Hx|]. lia.
  - intros i (tl & q) Hi (Htl & Q & HQ & Hk & Hlist).
    destruct (lookup_lt_is_Some_2 l i) as [t Ht]; [lia|]. rewrite Ht, bind_S.
    assert (t < n) as Htn by (by eapply (Forall_lookup_1 _ _ _ _ Hl)).
    destruct (lookup_lt_is_Some_2 (ch_rank c) t) as [x Hx]; [lia|]. rewrite Hx, bind_S.
    assert (x < n) as Hxn. { rewrite <- Hrl. by eapply perm_lookup_lt. }
    rewrite (wr_Some tl) by lia. rewrite bind_S.
    destruct (push_new_ok n q Q x HQ Hk Hxn) as (q' & Q' & -> & HQ' & Hk' & Hdom). rewrite bind_S.
    eexists. split; [done|]. split; [by rewrite insert_length|]. exists Q'. split; [done|]. split; [done|].
    intros j t' x' Hj Ht' Hx'. destruct (decide (j = i)) as [->|Hne].
    + assert (t' = t) as -> by congruence. assert (x' = x) as -> by congruence.
      rewrite list_lookup_insert by lia. split; [done|]. rewrite Hdom. set_solver.
    + rewrite list_lookup_insert_ne by done. destruct (Hlist j t' x') as [? ?]; [lia|done|done|]. split; [done|]. rewrite Hdom. set_solver.
  - rewrite E, bind_S. cbv beta iota.
    destruct (pin_loop_ok n g (dom Q) Hg (S (ch_nodes c)) q Q (s_dist s) []) as (q' & select & out & E2 & Hq' & Hps); [done| | |].
    { split; cbn; try done.
      - apply Hsh.
      - intros x Hx. by apply elem_of_nil in Hx.
      - intros x y Hx. by apply elem_of_nil in Hx.
      - intros a x y w Hx. by apply elem_of_nil in Hx.
      - intros x Hx. by right. }
    { unfold ch_nodes. rewrite Hrl. cbn. lia. }
    cbn [length] in E2. rewrite E2, bind_S. cbv beta iota zeta. eexists _, (length out), (rev out). split; [done|].
    assert (length out <= n) as Hlo.
    { apply NoDup_lt_length; [apply increasing_NoDup; apply Hps|apply Hps]. }
    assert (take (length out) select = N.of_nat <$> out) as Htake.
    { apply list_eq. intros i. destruct (decide (i < length out)) as [Hi|Hi].
      - rewrite lookup_take by done. rewrite list_lookup_fmap. destruct (lookup_lt_is_Some_2 out i Hi) as [x Hx].
        rewrite Hx. cbn. by apply (ps_select _ _ _ _ _ _ Hps).
      - rewrite lookup_take_ge by lia. rewrite list_lookup_fmap. rewrite (lookup_ge_None_2 out) by lia. done. }
    split; cbn [s_pushed s_queue s_dist s_pnode s_parc].
    + split; cbn [s_pushed s_queue s_dist s_pnode s_parc].
      * rewrite app_length, rev_length, take_length, drop_length. rewrite (ps_len _ _ _ _ _ _ Hps). lia.
      * done.
      * apply Hsh.
      * apply Hsh.
      * eauto.
    + by rewrite rev_length.
    + rewrite rev_involutive. apply Hps.
    + intros x Hx. apply (ps_lt _ _ _ _ _ _ Hps). by apply elem_of_list_In, in_rev, elem_of_list_In.
    + intros a x y w Hx Ha. assert (x ∈ out) as Hx' by (by apply elem_of_list_In, in_rev, elem_of_list_In).
      destruct (ps_closed _ _ _ _ _ _ Hps a x y w Hx' Ha) as [Hy|Hy]; [|by rewrite dom_empty_L in Hy; apply elem_of_empty in Hy].
      apply elem_of_list_In. rewrite <- in_rev. by apply elem_of_list_In.
    + intros i x Hi. assert (i < length out) as Hlt by (apply lookup_lt_Some in Hi; by rewrite rev_length in Hi).
      rewrite lookup_app_l by (rewrite rev_length, take_length, (ps_len _ _ _ _ _ _ Hps); lia).
      rewrite Htake. change (N.of_nat <$> out) with (map N.of_nat out). rewrite <- map_rev. change (map N.of_nat (rev out)) with (N.of_nat <$> rev out). by rewrite list_lookup_fmap, Hi.
    + intros i t x Ht Hx. destruct (Hlist i t x) as [Htl' Hin]; [apply lookup_lt_Some in Ht; lia|done|done|].
      split; [done|]. destruct (ps_start _ _ _ _ _ _ Hps x Hin) as [Hy|Hy]; [|by rewrite dom_empty_L in Hy; apply elem_of_empty in Hy].
      apply elem_of_list_In. rewrite <- in_rev. by apply elem_of_list_In.
Qed.

(** ** The search without stalling *)
Lemma full_search_ok n g ss : side_ok n g -> weights_fit g -> forall fuel S Q s,
  sbase n g ss S Q s -> (forall x, x ∈ S -> expanded g S Q s x) -> n < fuel + size S ->
  exists s' S', full_search g fuel s = Some s' /\ sbase n g ss S' ∅ s' /\ (forall x, x ∈ S' -> expanded g S' ∅ s' x).
Proof.
  intros Hg Hfit. induction fuel as [|fuel IH]; intros S Q s H Hexp Hfuel.
  { assert (size S <= n); [|lia]. apply set_bound. intros x Hx. eapply sb_lt; [done|by apply elem_of_union_l]. }
  cbn [full_search]. rewrite (q_empty_spec _ _ _ (sb_q _ _ _ _ _ _ H)). case_bool_decide as HQ.
  { subst Q. exists s, S. done. }
  destruct (pop_ok _ _ _ _ _ _ H HQ) as (x & key & q' & -> & Hxn & HxS & HxQ & Hkle & H1 & Hkey & Hdom & Hpop & Hq).
  cbv zeta in H1. rewrite bind_S. cbv beta iota.
  set (s1 := mkCSide (s_pushed s) q' (s_dist s) (s_pnode s) (s_parc s)) in *.
  destruct (expand_ok n g Hg Hfit ss ({[x]} ∪ S) (delete x Q) s1 x key) as (s2 & Q2 & -> & H2 & HB & Hx2); [done|set_solver|done|done|done|].
  rewrite bind_S. eapply IH; [exact H2| |rewrite size_union by set_solver; rewrite size_singleton; lia].
  intros z Hz. apply elem_of_union in Hz as Hz'. destruct Hz' as [->%elem_of_singleton|Hz']; [done|].
  eapply (expanded_better _ _ _ _ _ _ _ _ _ H1 H2 HB); [done|]. unfold expanded. rewrite Hdom. cbn [s_dist s1]. by apply Hexp.
Qed.
