(** The sweep of the pinned queries: exact distances at all selected nodes. *)
From Verif Require Import Base UtilSpec GraphSpec IdQueueModel IdQueueSpec IdQueueProofs IdSetModel IdSetSpec IdSetProofs ChCleanSpec ChBuildModel ChSpec ChQueryModel ChSearchProofs ChRunProofs ChUnpackProofs ChPinProofs WalkSpec.
Ltac Zify.zify_post_hook ::= idtac.

Lemma sweep_arcs_ok n g t x dist :
  side_ok n g -> weights_fit g -> x < n ->
  (forall a y w, sarc g a x y w -> exists ty, t !! y = Some ty /\ (ty <= inf_weight)%N) ->
  exists dist' pred, sweep_arcs g t x (dist, None) = Some (dist', pred) /\ (dist' <= dist)%N /\
    (forall a y w ty, sarc g a x y w -> t !! y = Some ty -> (dist' <= ty + w)%N) /\
    (pred = None -> dist' = dist) /\
    (forall a, pred = Some a -> exists y w ty, sarc g a x y w /\ t !! y = Some ty /\ dist' = (ty + w)%N /\ (dist' < dist)%N).
Proof.
  intros Hg Hfit Hx Ht. destruct (csr_range _ _ _ _ (so_csr _ _ Hg) Hx) as (lo & hi & Hlo & Hhi & Hle).
  unfold sweep_arcs. rewrite Hlo, bind_S, Hhi, bind_S.
  destruct (for_range_inv (fun i '(dist', pred) => (dist' <= dist)%N /\
    (forall a y w ty, lo <= a < i -> sarc g a x y w -> t !! y = Some ty -> (dist' <= ty + w)%N) /\
    (pred = None -> dist' = dist) /\
    (forall a, pred = Some a -> exists y w ty, sarc g a x y w /\ t !! y = Some ty /\ dist' = (ty + w)%N /\ (dist' < dist)%N))
   (fun xy '(dist, pred) =>
      y ← cs_head g !! xy; dy ← t !! y; w ← cs_weight g !! xy;
      Some (if decide (sum32 dy w < dist)%N then (sum32 dy w, Some xy) else (dist, pred))) lo hi (dist, None))
    as ((dist' & pred) & -> & H1 & H2 & H3 & H4); [lia| | |].
  - split; [lia|]. split; [lia|]. split; [done|]. done.
  - intros a (d' & pred) Ha (H1 & H2 & H3 & H4).
    destruct (arc_at n g Hg x lo hi a Hx Hlo Hhi Ha) as (y & w & Hy & Hw & Harc).
    destruct (Ht a y w Harc) as (ty & Hty & Htle). rewrite Hy, bind_S, Hty, bind_S, Hw, bind_S.
    pose proof (sarc_fit _ _ _ _ _ Hfit Harc) as Hwle. rewrite sum32_le by done.
    assert (forall a' y' w' ty', lo <= a' < S a -> sarc g a' x y' w' -> t !! y' = Some ty' ->
      (a' = a /\ y' = y /\ w' = w /\ ty' = ty) \/ (d' <= ty' + w')%N) as Hcases.
    { intros a' y' w' ty' Ha' Harc' Hty'. destruct (decide (a' = a)) as [->|Hne].
      - left. destruct Harc' as (_ & Hy' & Hw'). simplify_eq. done.
      - right. eapply H2; [|done|done]. lia. }
    destruct (decide (ty + w < d')%N) as [Hlt|Hge]; (eexists; split; [done|]); cbn beta iota.
    + split; [lia|]. split; [|split; [done|]].
      * intros a' y' w' ty' Ha' Harc' Hty'. destruct (Hcases a' y' w' ty' Ha' Harc' Hty') as [(-> & -> & -> & ->)|]; lia.
      * intros a' [= <-]. exists y, w, ty. do 3 (split; [done|]). lia.
    + split; [lia|]. split; [|split; [done|done]].
      intros a' y' w' ty' Ha' Harc' Hty'. destruct (Hcases a' y' w' ty' Ha' Harc' Hty') as [(-> & -> & -> & ->)|]; lia.
  - exists dist', pred. split; [done|]. split; [done|]. split; [|done].
    intros a y w ty Harc Hty. eapply H2; [|done|done]. destruct Harc as ((lo' & hi' & ? & ? & ?) & _). simplify_eq. done.
Qed.

(** The nodes [pre] have been processed; [s0] is the state after the search, [F] the nodes still flagged. *)
Definition swept_at (o : chside) (S F : gset nat) (s0 : cside) (pre : list nat) (s : cside) (x : nat) (t : N) : Prop :=
  (x ∈ F /\ s_dist s0 !! x = Some t /\ ((t < inf_weight)%N -> s_parc s !! x = s_parc s0 !! x)) \/
  (x ∉ F /\ (forall d0, x ∈ S -> s_dist s0 !! x = Some d0 -> (t < d0)%N) /\ (t < inf_weight)%N /\
     exists a y w ty, s_parc s !! x = Some (Some a) /\ sarc o a x y w /\ y ∈ pre /\ s_dist s !! y = Some ty /\ t = (ty + w)%N) \/
  (x ∉ F /\ x ∉ S /\ t = inf_weight /\ s_parc s !! x = Some None).

Record swept (n : nat) (o : chside) (S : gset nat) (s0 : cside) (pre : list nat) (F : gset nat) (s : cside) : Prop := {
  sw_ld : length (s_dist s) = n; sw_la : length (s_parc s) = n; sw_pn : s_pnode s = s_pnode s0; sw_q : s_queue s = s_queue s0;
  sw_f : fref n (s_pushed s) F;
  sw_F : forall x, x ∈ F -> x ∈ S;
  sw_heads : forall a x y w, x ∈ pre -> sarc o a x y w -> y ∈ pre;
  sw_rest : forall x, x ∉ pre -> s_dist s !! x = s_dist s0 !! x /\ s_parc s !! x = s_parc s0 !! x /\ (x ∈ S -> x ∈ F);
  sw_done : forall x, x ∈ pre -> exists t, s_dist s !! x = Some t /\ (t <= inf_weight)%N /\ swept_at o S F s0 pre s x t /\
    forall a y w ty, sarc o a x y w -> s_dist s !! y = Some ty -> (t <= ty + w)%N }.

Lemma sweep_node_ok n g o ss S s0 pre F s x :
  side_ok n o -> weights_fit o -> sbase n g ss S ∅ s0 ->
  swept n o S s0 pre F s -> x < n -> x ∉ pre -> (forall a y w, sarc o a x y w -> y ∈ pre) ->
  exists s' F', sweep_node o x s = Some s' /\ swept n o S s0 (pre ++ [x]) F' s'.
Proof.
  intros Ho Hfit H0 H Hx Hpre Hheads.
  pose proof (sw_ld _ _ _ _ _ _ _ H) as Hld. pose proof (sw_la _ _ _ _ _ _ _ H) as Hla.
  destruct (sw_rest _ _ _ _ _ _ _ H x Hpre) as (Hdx & Hpx & Hfx).
  unfold sweep_node. rewrite (is_set_spec _ _ _ _ (sw_f _ _ _ _ _ _ _ H)) by done. rewrite bind_S.
  assert (exists dist, (if bool_decide (x ∈ F) then s_dist s !! x else Some inf_weight) = Some dist /\ (dist <= inf_weight)%N /\
    ((x ∈ F /\ s_dist s0 !! x = Some dist) \/ (x ∉ F /\ x ∉ S /\ dist = inf_weight))) as (dist & Ed & Hdle & Hdist).
  { case_bool_decide as HF.
    - rewrite Hdx. destruct (sb_dist _ _ _ _ _ _ x H0) as (d & Hd & Hle); [apply elem_of_union_l; by apply (sw_F _ _ _ _ _ _ _ H)|].
      exists d. split; [done|]. split; [done|]. by left.
    - exists inf_weight. split; [done|]. split; [done|]. right. split; [done|]. split; [|done]. intros HS. by apply HF, Hfx. }
  rewrite Ed, bind_S.
  assert (forall y, y ∈ pre -> y <> x) as Hne by (intros y Hy ->; done).
  assert (forall a y w, sarc o a x y w -> exists ty, s_dist s !! y = Some ty /\ (ty <= inf_weight)%N) as Hvals.
  { intros a y w Ha. destruct (sw_done _ _ _ _ _ _ _ H y (Hheads a y w Ha)) as (ty & ? & ? & _). eauto. }
  destruct (sweep_arcs_ok n o (s_dist s) x dist Ho Hfit Hx Hvals) as (dist' & pred & -> & Hle & Hall & Hnone & Hsome).
  rewrite bind_S. cbv beta iota.
  assert (forall y, y ∈ pre -> y ∈ pre ++ [x]) as Hmono by (intros y Hy; apply elem_of_app; by left).
  (* nodes processed before *)
  assert (forall s' F', (forall y, y <> x -> s_dist s' !! y = s_dist s !! y) -> (forall y, y <> x -> s_parc s' !! y = s_parc s !! y) ->
     (forall y, y <> x -> y ∈ F' <-> y ∈ F) ->
     forall y, y ∈ pre -> exists t, s_dist s' !! y = Some t /\ (t <= inf_weight)%N /\ swept_at o S F' s0 (pre ++ [x]) s' y t /\
       forall a z w tz, sarc o a y z w -> s_dist s' !! z = Some tz -> z <> x -> (t <= tz + w)%N) as Hold.
  { intros s' F' Hd' Hp' HF' y Hy. destruct (sw_done _ _ _ _ _ _ _ H y Hy) as (t & Hty & Htle & Hat & Hlow).
    exists t. rewrite (Hd' y) by (by apply Hne). split; [done|]. split; [done|]. split.
    - unfold swept_at in *. rewrite (HF' y) by (by apply Hne). rewrite (Hp' y) by (by apply Hne).
      destruct Hat as [?|[(? & ? & ? & a & z & w & tz & ? & ? & Hz & ? & ?)|?]]; [by left|right; left|by right; right].
      split; [done|]. split; [done|]. split; [done|]. exists a, z, w, tz. split; [done|]. split; [done|].
      split; [by apply Hmono|]. split; [|done]. rewrite (Hd' z) by (by apply Hne). done.
    - intros a z w tz Ha Hz Hzx. rewrite Hd' in Hz by done. by eapply Hlow. }
  assert (forall a z v w, z ∈ pre ++ [x] -> sarc o a z v w -> v ∈ pre) as Hheads'.
  { intros a z v w [Hz|Hz%elem_of_list_singleton]%elem_of_app Ha; [by eapply (sw_heads _ _ _ _ _ _ _ H)|]. subst z. by eapply Hheads. }
  destruct pred as [a|].
  - destruct (Hsome a eq_refl) as (y & w & ty & Harc & Hty & -> & Hlt).
    rewrite (wr_Some (s_dist s)) by lia. rewrite bind_S. rewrite (wr_Some (s_parc s)) by lia. rewrite bind_S.
    destruct (f_step_refines n (s_pushed s) F (FResetOne x) (sw_f _ _ _ _ _ _ _ H) Hx) as (f' & Ef & Hf').
    cbn [f_step f_spec] in Ef, Hf'. rewrite Ef, bind_S. eexists _, (F ∖ {[x]}). split; [done|].
    assert (forall z, z <> x -> z ∈ F ∖ {[x]} <-> z ∈ F) as HFx by (intros z Hz; set_solver).
    split; cbn [s_pushed s_queue s_dist s_pnode s_parc].
    + by rewrite insert_length. 
    + by rewrite insert_length.
    + apply H.
    + apply H.
    + done.
    + intros z Hz. apply (sw_F _ _ _ _ _ _ _ H). set_solver.
    + intros b z v u Hz Hb. apply Hmono. by eapply Hheads'.
    + intros z Hz. assert (z <> x /\ z ∉ pre) as [Hzx Hzp].
      { split; intros ?; apply Hz; apply elem_of_app; [right; by apply elem_of_list_singleton|by left]. }
      rewrite !list_lookup_insert_ne by done. rewrite HFx by done. by apply (sw_rest _ _ _ _ _ _ _ H).
    + intros z [Hz|Hz%elem_of_list_singleton]%elem_of_app.
      * edestruct (Hold (mkCSide f' (s_queue s) (<[x:=(ty + w)%N]> (s_dist s)) (s_pnode s) (<[x:=Some a]> (s_parc s))) (F ∖ {[x]})) as (t & Ht1 & Ht2 & Ht3 & Ht4);
          [cbn; intros; by apply list_lookup_insert_ne|cbn; intros; by apply list_lookup_insert_ne|done|exact Hz|].
        exists t. do 3 (split; [done|]). intros b v u tv Hb Htv. eapply Ht4; [done|done|]. eapply Hne, (sw_heads _ _ _ _ _ _ _ H); done.
      * subst z. exists (ty + w)%N. rewrite list_lookup_insert by lia. split; [done|]. split; [lia|]. split.
        -- right. left. split; [set_solver|]. split; [|split; [lia|]].
           ++ intros d0 HS Hd0. destruct Hdist as [[_ Hd]|(_ & ? & _)]; [|done]. assert (d0 = dist) as -> by congruence. lia.
           ++ exists a, y, w, ty. cbn [s_parc s_dist]. rewrite list_lookup_insert by lia. split; [done|]. split; [done|].
              pose proof (Hheads a y w Harc) as Hyp. split; [by apply Hmono|]. split; [|done].
              rewrite list_lookup_insert_ne; [done|]. intros ->. by apply (Hne y).
        -- intros b v u tv Hb Htv. rewrite list_lookup_insert_ne in Htv; [by eapply Hall|].
           intros ->. by apply (Hne v (Hheads b v u Hb)).
  - specialize (Hnone eq_refl). subst dist'. destruct (decide (dist = inf_weight)) as [Hinf|Hninf].
    + rewrite (wr_Some (s_dist s)) by lia. rewrite bind_S. rewrite (wr_Some (s_parc s)) by lia. rewrite bind_S.
      eexists _, F. split; [done|]. split; cbn [s_pushed s_queue s_dist s_pnode s_parc].
      * by rewrite insert_length.
      * by rewrite insert_length.
      * apply H.
      * apply H.
      * apply H.
      * apply H.
      * intros b z v u Hz Hb. apply Hmono. by eapply Hheads'.
      * intros z Hz. assert (z <> x /\ z ∉ pre) as [Hzx Hzp].
        { split; intros ?; apply Hz; apply elem_of_app; [right; by apply elem_of_list_singleton|by left]. }
        rewrite !list_lookup_insert_ne by done. by apply (sw_rest _ _ _ _ _ _ _ H).
      * intros z [Hz|Hz%elem_of_list_singleton]%elem_of_app.
        -- edestruct (Hold (mkCSide (s_pushed s) (s_queue s) (<[x:=inf_weight]> (s_dist s)) (s_pnode s) (<[x:=None]> (s_parc s))) F) as (t & Ht1 & Ht2 & Ht3 & Ht4);
             [cbn; intros; by apply list_lookup_insert_ne|cbn; intros; by apply list_lookup_insert_ne|done|exact Hz|].
           exists t. do 3 (split; [done|]). intros b v u tv Hb Htv. eapply Ht4; [done|done|]. eapply Hne, (sw_heads _ _ _ _ _ _ _ H); done.
        -- subst z. exists inf_weight. rewrite list_lookup_insert by lia. split; [done|]. split; [done|]. split.
           ++ destruct Hdist as [[HF Hd]|(HF & HS & _)].
              ** left. split; [done|]. split; [congruence|]. lia.
              ** right. right. do 3 (split; [done|]). cbn [s_parc]. by rewrite list_lookup_insert by lia.
           ++ intros b v u tv Hb Htv. rewrite list_lookup_insert_ne in Htv; [rewrite <- Hinf; by eapply Hall|].
              intros ->. by apply (Hne v (Hheads b v u Hb)).
    + exists s, F. split; [done|]. destruct Hdist as [[HF Hd]|(_ & _ & ?)]; [|done]. split; try apply H.
      * intros b z v u Hz Hb. apply Hmono. by eapply Hheads'.
      * intros z Hz. apply (sw_rest _ _ _ _ _ _ _ H). intros ?. apply Hz. by apply Hmono.
      * intros z [Hz|Hz%elem_of_list_singleton]%elem_of_app.
        -- edestruct (Hold s F) as (t & Ht1 & Ht2 & Ht3 & Ht4); [done|done|done|exact Hz|].
           exists t. do 3 (split; [done|]). intros b v u tv Hb Htv. eapply Ht4; [done|done|]. eapply Hne, (sw_heads _ _ _ _ _ _ _ H); done.
        -- subst z. exists dist. rewrite Hdx. split; [done|]. split; [done|]. split; [|done]. left. split; [done|]. split; [done|]. done.
Qed.

(** ** The whole run *)
Lemma increasing_rev_before sel pre x post y :
  increasing (rev sel) -> sel = pre ++ x :: post -> y ∈ sel -> x < y -> y ∈ pre.
Proof.
  intros Hinc -> Hy Hlt. apply elem_of_app in Hy as [Hy|Hy]; [done|]. exfalso. apply elem_of_cons in Hy as [->|Hy]; [lia|].
  rewrite rev_app_distr in Hinc. cbn [rev] in Hinc.
  apply elem_of_list_In, in_rev, elem_of_list_In, elem_of_list_lookup in Hy as [i Hi].
  assert (i < length (rev post)) by (by eapply lookup_lt_Some).
  specialize (Hinc i (length (rev post)) y x). rewrite <- app_assoc in Hinc.
  rewrite lookup_app_l in Hinc by done. rewrite lookup_app_r in Hinc by lia. rewrite Nat.sub_diag in Hinc. cbn in Hinc.
  specialize (Hinc ltac:(done) Hi eq_refl). lia.
Qed.

Lemma pinned_run_ok n c gf gb l cnt p sel ss Q s :
  side_ok n gf -> side_ok n gb -> weights_fit gf -> weights_fit gb -> ch_nodes c = n ->
  pinned n c gb l cnt p sel -> sbase n gf ss ∅ Q s ->
  exists s0 S F s', pinned_run c gf gb (s_dist p) cnt s = Some s' /\
    sbase n gf ss S ∅ s0 /\ (forall x, x ∈ S -> expanded gf S ∅ s0 x) /\ swept n gb S s0 sel F s'.
Proof.
  intros Hg Ho Hgf Hof Hn Hp Hs. unfold pinned_run. rewrite Hn.
  destruct (full_search_ok n gf ss Hg Hgf (S n) ∅ Q s Hs) as (s0 & S & -> & Hs0 & Hexp); [intros x Hx; by apply elem_of_empty in Hx|rewrite size_empty; lia|].
  rewrite bind_S.
  destruct (for_range_inv (fun i s' => exists F, swept n gb S s0 (take i sel) F s')
    (fun i s => x ← s_dist p !! i; sweep_node gb (N.to_nat x) s) 0 cnt s0) as (s' & -> & F & Hsw); [lia| | |].
  - exists S. rewrite take_0. split; try done.
    + apply Hs0.
    + apply Hs0.
    + pose proof (sb_f _ _ _ _ _ _ Hs0) as Hf. by rewrite dom_empty_L, union_empty_r_L in Hf.
    + intros a x y w Hx. by apply elem_of_nil in Hx.
    + intros x Hx. by apply elem_of_nil in Hx.
  - intros i s' Hi (F & Hsw). rewrite <- (pn_len _ _ _ _ _ _ _ Hp) in Hi.
    destruct (lookup_lt_is_Some_2 sel i) as [x Hx]; [lia|]. rewrite (pn_sel _ _ _ _ _ _ _ Hp i x Hx), bind_S.
    rewrite Nat2N.id.
    pose proof (take_drop_middle sel i x Hx) as Hsplit. symmetry in Hsplit.
    destruct (sweep_node_ok n gf gb ss S s0 (take i sel) F s' x) as (s2 & F2 & -> & Hsw2); [done|done|done|done| | | |].
    + apply (pn_lt _ _ _ _ _ _ _ Hp). by eapply elem_of_list_lookup_2.
    + intros Hin. pose proof (increasing_NoDup _ (pn_dec _ _ _ _ _ _ _ Hp)) as Hnd.
      assert (NoDup sel) as Hnd'. { rewrite <- (rev_involutive sel). apply NoDup_ListNoDup, List.NoDup_rev, NoDup_ListNoDup. done. }
      rewrite Hsplit in Hnd'. apply NoDup_app in Hnd' as (_ & Hd & _). apply (Hd x Hin). apply elem_of_cons. by left.
    + intros a y w Ha. eapply (increasing_rev_before sel); [apply Hp|exact Hsplit| |by eapply (so_up _ _ Ho)].
      eapply (pn_closed _ _ _ _ _ _ _ Hp); [|done]. by eapply elem_of_list_lookup_2.
    + exists s2. split; [done|]. exists F2. by rewrite (take_S_r _ _ x) by done.
  - exists s0, S, F, s'. split; [done|]. split; [done|]. split; [done|].
    rewrite <- (pn_len _ _ _ _ _ _ _ Hp), firstn_all in Hsw. done.
Qed.

(** ** Exactness *)
Section exact.
Context (n : nat) (c : ch) (gf gb : chside) (R : nat -> nat -> N -> Prop) (ss : list (nat * N)) (S F : gset nat) (s0 s : cside) (sel : list nat).
Hypothesis HC : covers n gf gb R.
Hypothesis Hg : side_ok n gf.
Hypothesis Ho : side_ok n gb.
Hypothesis Hs0 : sbase n gf ss S ∅ s0.
Hypothesis Hexp : forall x, x ∈ S -> expanded gf S ∅ s0 x.
Hypothesis Hsw : swept n gb S s0 sel F s.
Hypothesis Hlt : forall x, x ∈ sel -> x < n.

Lemma in_S x : x ∈ S ∪ dom (∅ : gmap nat N) <-> x ∈ S.
Proof. rewrite dom_empty_L, union_empty_r_L. done. Qed.

Lemma up_dist y d0 z L : (y, d0) ∈ ss -> upstar (swarcs gf) y z L -> (d0 + L < inf_weight)%N ->
  z ∈ S /\ exists d, s_dist s0 !! z = Some d /\ (d <= d0 + L)%N.
Proof.
  intros Hy. induction 1 as [y|y x v L w Hup IH (a & Ha)]; intros Hinf.
  - destruct (sb_src _ _ _ _ _ _ Hs0 y d0 Hy) as (Hin & d & Hd & Hle). split; [by apply in_S|]. exists d. split; [done|lia].
  - destruct (IH Hy) as (Hx & d & Hd & Hle); [lia|].
    destruct (Hexp x Hx d a v w Hd Ha) as (Hv & dv & Hdv & Hdle); [lia|]. split; [by apply in_S|]. exists dv. split; [done|lia].
Qed.

Lemma down_dist x y M : x ∈ sel -> upstar (swarcs gb) x y M -> y ∈ sel /\ forall tx ty, s_dist s !! x = Some tx -> s_dist s !! y = Some ty -> (tx <= ty + M)%N.
Proof.
  intros Hx. induction 1 as [x|x y v M w Hup IH (a & Ha)].
  - split; [done|]. intros tx ty H1 H2. assert (tx = ty) as -> by congruence. lia.
  - destruct (IH Hx) as (Hy & Hle). split; [by eapply (sw_heads _ _ _ _ _ _ _ Hsw)|]. intros tx tv Htx Htv.
    destruct (sw_done _ _ _ _ _ _ _ Hsw y Hy) as (ty & Hty & _ & _ & Hlow).
    specialize (Hle tx ty Htx Hty). specialize (Hlow a v w tv Ha Htv). lia.
Qed.

Lemma sweep_complete x t y d0 L : x ∈ sel -> s_dist s !! x = Some t -> (y, d0) ∈ ss -> R y x L -> (t <= d0 + L)%N.
Proof.
  intros Hx Ht Hy HR. destruct (N.lt_ge_cases (d0 + L) inf_weight) as [HD|HD].
  2:{ destruct (sw_done _ _ _ _ _ _ _ Hsw x Hx) as (t' & Ht' & Hle & _). assert (t' = t) as -> by congruence. lia. }
  assert (y < n) as Hyn. { destruct (sb_src _ _ _ _ _ _ Hs0 y d0 Hy) as (Hin & _). by eapply sb_lt. }
  destruct (cv_up _ _ _ _ HC y x L ltac:(lia) Hyn (Hlt x Hx) HR) as (z & L1 & L2 & HL & Hup1 & Hup2).
  destruct (up_dist y d0 z L1 Hy Hup1) as (Hz & d & Hd & Hdle); [lia|].
  destruct (down_dist x z L2 Hx Hup2) as (Hzs & Hle).
  destruct (sw_done _ _ _ _ _ _ _ Hsw z Hzs) as (tz & Htz & _ & Hat & _). specialize (Hle t tz Ht Htz).
  assert ((tz <= d)%N); [|lia]. destruct Hat as [(_ & Hd' & _)|[(_ & Hlt' & _)|(_ & ? & _)]].
  - assert (tz = d) as -> by congruence. lia.
  - specialize (Hlt' d Hz Hd). lia.
  - done.
Qed.

Lemma s0_route x d : x ∈ S -> s_dist s0 !! x = Some d -> exists y d0 L, (y, d0) ∈ ss /\ y < n /\ R y x L /\ d = (d0 + L)%N.
Proof. intros Hx Hd. eapply (dist_route n gf gb R ss S ∅ s0 HC Hg Hs0); [by apply in_S|done]. Qed.

Lemma sweep_sound : forall k x t, n - x <= k -> x ∈ sel -> s_dist s !! x = Some t -> (t < inf_weight)%N ->
  exists y d0 L, (y, d0) ∈ ss /\ y < n /\ R y x L /\ t = (d0 + L)%N.
Proof.
  induction k as [k IH] using lt_wf_ind. intros x t Hk Hx Ht Hinf.
  destruct (sw_done _ _ _ _ _ _ _ Hsw x Hx) as (t' & Ht' & _ & Hat & _). assert (t' = t) as -> by congruence.
  destruct Hat as [(HF & Hd & _)|[(_ & _ & _ & a & y & w & ty & _ & Ha & Hy & Hty & ->)|(_ & _ & -> & _)]]; [| |lia].
  - eapply s0_route; [by apply (sw_F _ _ _ _ _ _ _ Hsw)|done].
  - pose proof (so_up _ _ Ho _ _ _ _ Ha). pose proof (Hlt y Hy).
    destruct (IH (n - y) ltac:(lia) y ty) as (z & d0 & L & Hz & Hzn & HR & ->); [lia|done|done|lia|].
    exists z, d0, (L + w)%N. split; [done|]. split; [done|]. split; [|lia].
    eapply (cv_trans _ _ _ _ HC); [done|by eapply (cv_bwd _ _ _ _ HC)].
Qed.

(** ** Used sources *)
(** Distances of the search that cannot be improved. *)
Definition tight (x : nat) (d : N) : Prop := forall z dz L, (z, dz) ∈ ss -> R z x L -> (d <= dz + L)%N.

Lemma tight_flag x d : x ∈ S -> s_dist s0 !! x = Some d -> tight x d -> x ∈ F.
Proof.
  intros Hx Hd Hti. destruct (decide (x ∈ F)) as [|HF]; [done|exfalso].
  destruct (decide (x ∈ sel)) as [Hsel|Hsel].
  - destruct (sw_done _ _ _ _ _ _ _ Hsw x Hsel) as (t & Ht & _ & [(? & _)|[(_ & Hl & Hinf & _)|(_ & ? & _)]] & _); [done| |done].
    specialize (Hl d Hx Hd). destruct (sweep_sound (n - x) x t) as (y & d0 & L & Hy & _ & HR & ->); [lia|done|done|done|].
    specialize (Hti _ _ _ Hy HR). lia.
  - by destruct (sw_rest _ _ _ _ _ _ _ Hsw x Hsel) as (_ & _ & HSF); apply HF, HSF.
Qed.

Lemma climb_up_ok : forall fuel x d, x < fuel -> x ∈ S -> s_dist s0 !! x = Some d -> tight x d ->
  exists z dz L, climb_up s fuel x = Some z /\ z < n /\ (z, dz) ∈ ss /\ R z x L /\ d = (dz + L)%N.
Proof.
  induction fuel as [|fuel IH]; intros x d Hfuel Hx Hd Hti; [lia|]. cbn [climb_up].
  assert (x < n) as Hxn by (eapply (sb_lt _ _ _ _ _ _ _ Hs0); by apply in_S).
  rewrite (sw_pn _ _ _ _ _ _ _ Hsw).
  destruct (sb_pred _ _ _ _ _ _ Hs0 x d) as [[-> Hs]|(y & a & w & dy & -> & _ & Ha & Hy & Hdy & ->)]; [by apply in_S|done| |].
  - rewrite bind_S. exists x, d, 0%N. do 3 (split; [done|]). split; [by apply (cv_refl _ _ _ _ HC)|lia].
  - rewrite bind_S. rewrite (is_set_spec _ _ _ _ (sw_f _ _ _ _ _ _ _ Hsw)) by done. rewrite bind_S.
    rewrite (bool_decide_eq_true_2 (x ∈ F)) by (by eapply tight_flag). pose proof (so_up _ _ Hg _ _ _ _ Ha) as Hup.
    cbn [chk]. rewrite bind_S. rewrite (bool_decide_eq_true_2 (y < x)) by done. cbn [chk]. rewrite bind_S.
    pose proof (cv_fwd _ _ _ _ HC _ _ _ _ Ha) as HRa.
    destruct (IH y dy) as (z & dz & L & -> & Hzn & Hz & HR & ->); [lia|done|done| |].
    { intros z dz L Hz HR. pose proof (Hti z dz (L + w)%N Hz (cv_trans _ _ _ _ HC _ _ _ _ _ HR HRa)). lia. }
    exists z, dz, (L + w)%N. do 3 (split; [done|]). split; [|lia]. by eapply (cv_trans _ _ _ _ HC).
Qed.

Lemma descend_ok : forall fuel x t, n <= fuel + x -> x ∈ sel -> s_dist s !! x = Some t -> x ∈ F \/ (t < inf_weight)%N ->
  exists y ty L, descend gb s fuel x = Some y /\ y ∈ sel /\ y ∈ F /\ s_dist s !! y = Some ty /\ R y x L /\ t = (ty + L)%N.
Proof.
  induction fuel as [|fuel IH]; intros x t Hfuel Hx Ht Hor; pose proof (Hlt x Hx) as Hxn; [lia|]. cbn [descend].
  rewrite (is_set_spec _ _ _ _ (sw_f _ _ _ _ _ _ _ Hsw)) by done. rewrite bind_S. case_bool_decide as HF.
  { exists x, t, 0%N. do 4 (split; [done|]). split; [by apply (cv_refl _ _ _ _ HC)|lia]. }
  destruct Hor as [?|Hinf]; [done|].
  destruct (sw_done _ _ _ _ _ _ _ Hsw x Hx) as (t' & Ht' & _ & Hat & _). assert (t' = t) as -> by congruence.
  destruct Hat as [(? & _)|[(_ & _ & _ & a & y & w & ty & Hpa & Ha & Hy & Hty & ->)|(_ & _ & -> & _)]]; [done| |lia].
  pose proof (so_up _ _ Ho _ _ _ _ Ha) as Hup. pose proof Ha as (_ & Hh & _).
  rewrite Hpa, bind_S, bind_S, Hh, bind_S. rewrite (bool_decide_eq_true_2 (x < y)) by done. cbn [chk]. rewrite bind_S.
  destruct (IH y ty) as (z & tz & L & -> & Hz & HzF & Htz & HR & ->); [lia|done|done|right; lia|].
  exists z, tz, (L + w)%N. do 4 (split; [done|]). split; [|lia]. eapply (cv_trans _ _ _ _ HC); [done|]. eapply (cv_bwd _ _ _ _ HC a).
  done.
Qed.

Lemma used_of_ok x t : ch_nodes c = n -> length (ch_order c) = n -> x ∈ sel -> s_dist s !! x = Some t ->
  (used_of c gb s x = Some None /\ t = inf_weight) \/
  exists z dz L o, used_of c gb s x = Some (Some o) /\ ch_order c !! z = Some o /\ (z, dz) ∈ ss /\ R z x L /\ t = (dz + L)%N.
Proof.
  intros Hn Hlen Hx Ht. pose proof (Hlt x Hx) as Hxn.
  assert (x ∈ F \/ (t < inf_weight)%N -> exists z dz L o, (y ← descend gb s n x; z ← climb_up s n y; o ← ch_order c !! z; Some (Some o)) = Some (Some o) /\
    ch_order c !! z = Some o /\ (z, dz) ∈ ss /\ R z x L /\ t = (dz + L)%N) as Hgo.
  { intros Hor. destruct (descend_ok n x t) as (y & ty & L & -> & Hy & HyF & Hty & HR & ->); [lia|done|done|done|]. rewrite bind_S.
    assert (s_dist s0 !! y = Some ty) as Hty0.
    { destruct (sw_done _ _ _ _ _ _ _ Hsw y Hy) as (t' & Ht' & _ & [(_ & ? & _)|[(? & _)|(? & _)]] & _); congruence. }
    destruct (climb_up_ok n y ty) as (z & dz & L' & -> & Hzn & Hz & HR' & ->); [by apply Hlt|by apply (sw_F _ _ _ _ _ _ _ Hsw)|done| |].
    { intros z dz L' Hz HR'. by eapply sweep_complete. }
    rewrite bind_S. destruct (lookup_lt_is_Some_2 (ch_order c) z) as [o Ho']; [lia|]. exists z, dz, (L' + L)%N, o.
    rewrite Ho', bind_S. do 3 (split; [done|]). split; [by eapply (cv_trans _ _ _ _ HC)|lia]. }
  unfold used_of. rewrite Hn. rewrite (is_set_spec _ _ _ _ (sw_f _ _ _ _ _ _ _ Hsw)) by done. rewrite bind_S. case_bool_decide as HF.
  { rewrite bind_S. right. apply Hgo. by left. }
  destruct (sw_done _ _ _ _ _ _ _ Hsw x Hx) as (t' & Ht' & _ & Hat & _). assert (t' = t) as -> by congruence.
  destruct Hat as [(? & _)|[(_ & _ & Hinf & a & y & w & ty & -> & _)|(_ & _ & Ht2 & ->)]]; [done| |].
  - rewrite bind_S, bind_S. right. apply Hgo. by right.
  - rewrite bind_S, bind_S. left. done.
Qed.
End exact.
