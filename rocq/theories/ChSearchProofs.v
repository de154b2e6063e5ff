(** The searches of ContractionHierarchyQuery: what they have found at every point. *)
From Verif Require Import Base UtilSpec GraphSpec WalkSpec IdQueueModel IdQueueSpec IdQueueProofs IdSetModel IdSetSpec IdSetProofs ChBuildModel ChSpec ChQueryModel.
Ltac Zify.zify_post_hook ::= idtac.

Lemma sum32_le a b : (a <= inf_weight)%N -> (b <= inf_weight)%N -> sum32 a b = (a + b)%N.
Proof. intros. unfold sum32, inf_weight in *. apply N.mod_small. lia. Qed.

Definition weights_fit (g : chside) : Prop := Forall (fun w => (w <= inf_weight)%N) (cs_weight g).
Lemma sarc_fit g a x y w : weights_fit g -> sarc g a x y w -> (w <= inf_weight)%N.
Proof. intros H (_ & _ & Hw). by eapply (Forall_lookup_1 _ _ _ _ H). Qed.
Lemma sarc_lt n g a x y w : side_ok n g -> sarc g a x y w -> x < n /\ y < n.
Proof.
  intros Hg (Ho & Hh & _). split.
  - eapply out_arc_lt; [apply (so_csr _ _ Hg)|done].
  - eapply (csr_head _ _ _ (so_csr _ _ Hg)). by eapply elem_of_list_lookup_2.
Qed.

(** ** One side *)
Record sbase (n : nat) (g : chside) (ss : list (nat * N)) (S : gset nat) (Q : gmap nat N) (s : cside) : Prop := {
  sb_ld : length (s_dist s) = n; sb_ln : length (s_pnode s) = n; sb_la : length (s_parc s) = n;
  sb_f : fref n (s_pushed s) (S ∪ dom Q);
  sb_q : qref n (s_queue s) Q;
  sb_disj : forall x, x ∈ S -> Q !! x = None;
  sb_key : forall x k, Q !! x = Some k -> s_dist s !! x = Some k /\ (k <= inf_weight)%N;
  sb_pop : forall x, x ∈ S -> exists d, s_dist s !! x = Some d /\ (d <= inf_weight)%N /\ forall y k, Q !! y = Some k -> (d <= k)%N;
  sb_pred : forall x d, x ∈ S ∪ dom Q -> s_dist s !! x = Some d ->
    (s_pnode s !! x = Some None /\ (x, d) ∈ ss) \/
    exists y a w dy, s_pnode s !! x = Some (Some y) /\ s_parc s !! x = Some (Some a) /\ sarc g a y x w /\
      y ∈ S /\ s_dist s !! y = Some dy /\ d = (dy + w)%N;
  sb_src : forall x d0, (x, d0) ∈ ss -> x ∈ S ∪ dom Q /\ exists d, s_dist s !! x = Some d /\ (d <= d0)%N;
  sb_inf : forall x y d, x ∈ S ∪ dom Q -> s_dist s !! x = Some d -> s_pnode s !! x = Some (Some y) -> (d < inf_weight)%N }.

Lemma sb_lt n g ss S Q s x : sbase n g ss S Q s -> x ∈ S ∪ dom Q -> x < n.
Proof. intros H Hx. destruct (sb_f _ _ _ _ _ _ H) as (_ & _ & _ & Hn). by apply Hn. Qed.
Lemma sb_dist n g ss S Q s x : sbase n g ss S Q s -> x ∈ S ∪ dom Q -> exists d, s_dist s !! x = Some d /\ (d <= inf_weight)%N.
Proof.
  intros H [Hx|(k & Hk)%elem_of_dom]%elem_of_union.
  - destruct (sb_pop _ _ _ _ _ _ H x Hx) as (d & ? & ? & _). eauto.
  - destruct (sb_key _ _ _ _ _ _ H x k Hk). eauto.
Qed.

(** Distances only fall, and those of popped nodes stay. *)
Definition better (S : gset nat) (Q Q' : gmap nat N) (s s' : cside) : Prop :=
  (forall x, x ∈ S -> s_dist s' !! x = s_dist s !! x) /\
  (forall x k, Q !! x = Some k -> exists k', Q' !! x = Some k' /\ (k' <= k)%N).
Lemma better_refl S Q s : better S Q Q s s.
Proof. split; [done|]. intros x k H. exists k. split; [done|lia]. Qed.
Lemma better_trans S Q1 Q2 Q3 s1 s2 s3 : better S Q1 Q2 s1 s2 -> better S Q2 Q3 s2 s3 -> better S Q1 Q3 s1 s3.
Proof.
  intros (A1 & B1) (A2 & B2). split.
  - intros x Hx. by rewrite A2, A1.
  - intros x k Hk. destruct (B1 _ _ Hk) as (k' & Hk' & ?). destruct (B2 _ _ Hk') as (k'' & ? & ?). exists k''. split; [done|lia].
Qed.
Lemma better_dist n g ss S Q Q' s s' x d :
  sbase n g ss S Q s -> sbase n g ss S Q' s' -> better S Q Q' s s' -> x ∈ S ∪ dom Q -> s_dist s !! x = Some d ->
  x ∈ S ∪ dom Q' /\ exists d', s_dist s' !! x = Some d' /\ (d' <= d)%N.
Proof.
  intros H H' (A & B) [Hx|(k & Hk)%elem_of_dom]%elem_of_union Hd.
  - split; [by apply elem_of_union_l|]. exists d. rewrite A by done. split; [done|lia].
  - destruct (B _ _ Hk) as (k' & Hk' & Hle). split; [apply elem_of_union_r, elem_of_dom; eauto|].
    destruct (sb_key _ _ _ _ _ _ H' x k' Hk') as [Hd' _]. exists k'. split; [done|].
    destruct (sb_key _ _ _ _ _ _ H x k Hk). simplify_eq. done.
Qed.

Definition expanded (g : chside) (S : gset nat) (Q : gmap nat N) (s : cside) (x : nat) : Prop :=
  forall d a y w, s_dist s !! x = Some d -> sarc g a x y w -> (d + w < inf_weight)%N ->
    y ∈ S ∪ dom Q /\ exists dy, s_dist s !! y = Some dy /\ (dy <= d + w)%N.
Definition stalled (o : chside) (S : gset nat) (Q : gmap nat N) (s : cside) (x : nat) : Prop :=
  exists d a y w dy, s_dist s !! x = Some d /\ sarc o a x y w /\ y ∈ S ∪ dom Q /\ s_dist s !! y = Some dy /\ (dy + w <= d)%N.

Lemma expanded_better n g ss S Q Q' s s' x :
  sbase n g ss S Q s -> sbase n g ss S Q' s' -> better S Q Q' s s' -> x ∈ S ->
  expanded g S Q s x -> expanded g S Q' s' x.
Proof.
  intros H H' B Hx He d a y w Hd Ha Hlt. rewrite (proj1 B) in Hd by done.
  destruct (He d a y w Hd Ha Hlt) as (Hy & dy & Hdy & Hle).
  destruct (better_dist _ _ _ _ _ _ _ _ _ _ H H' B Hy Hdy) as (Hy' & dy' & ? & ?).
  split; [done|]. exists dy'. split; [done|lia].
Qed.
Lemma stalled_better n g o ss S Q Q' s s' x :
  sbase n g ss S Q s -> sbase n g ss S Q' s' -> better S Q Q' s s' -> x ∈ S ->
  stalled o S Q s x -> stalled o S Q' s' x.
Proof.
  intros H H' B Hx (d & a & y & w & dy & Hd & Ha & Hy & Hdy & Hle).
  destruct (better_dist _ _ _ _ _ _ _ _ _ _ H H' B Hy Hdy) as (Hy' & dy' & ? & ?).
  exists d, a, y, w, dy'. rewrite (proj1 B) by done. do 4 (split; [done|]). lia.
Qed.

(** ** Expanding a node *)
Section side.
Context (n : nat) (g : chside).
Hypothesis Hg : side_ok n g.
Hypothesis Hfit : weights_fit g.

Lemma arc_at x lo hi a :
  x < n -> cs_first_out g !! x = Some lo -> cs_first_out g !! S x = Some hi -> lo <= a < hi ->
  exists y w, cs_head g !! a = Some y /\ cs_weight g !! a = Some w /\ sarc g a x y w.
Proof.
  intros Hx Hlo Hhi Ha.
  destruct (csr_range _ _ _ _ (so_csr _ _ Hg) Hx) as (lo' & hi' & Hlo' & Hhi' & Hle). simplify_eq.
  destruct (lookup_lt_is_Some_2 (cs_head g) a) as [y Hy]; [lia|].
  destruct (lookup_lt_is_Some_2 (cs_weight g) a) as [w Hw]; [rewrite (so_weight _ _ Hg); lia|].
  exists y, w. split; [done|]. split; [done|]. split; [|done]. exists lo, hi. done.
Qed.

Lemma expand_arc_ok ss S Q s x key a y w :
  sbase n g ss S Q s -> x ∈ S -> s_dist s !! x = Some key ->
  (forall z dz, z ∈ S -> s_dist s !! z = Some dz -> (dz <= key)%N) ->
  (forall z k, Q !! z = Some k -> (key <= k)%N) ->
  sarc g a x y w ->
  exists s' Q', expand_arc g x key a s = Some s' /\ sbase n g ss S Q' s' /\ better S Q Q' s s' /\
    (forall z k, Q' !! z = Some k -> (key <= k)%N) /\
    ((key + w < inf_weight)%N -> y ∈ S ∪ dom Q' /\ exists dy, s_dist s' !! y = Some dy /\ (dy <= key + w)%N).
Proof.
  intros H Hx Hkey Hpop Hq Ha. pose proof (sarc_fit _ _ _ _ _ Hfit Ha) as Hw.
  destruct (sarc_lt _ _ _ _ _ _ Hg Ha) as [Hxn Hyn]. pose proof (so_up _ _ Hg _ _ _ _ Ha) as Hxy.
  destruct Ha as (Hout & Hhd & Hwt). pose proof (conj Hout (conj Hhd Hwt)) as Ha.
  assert ((key <= inf_weight)%N) as Hkle.
  { destruct (sb_pop _ _ _ _ _ _ H x Hx) as (d & Hd & ? & _). by simplify_eq. }
  unfold expand_arc. rewrite Hhd, bind_S, Hwt, bind_S. cbv zeta.
  rewrite (is_set_spec _ _ _ _ (sb_f _ _ _ _ _ _ H)) by done. rewrite bind_S.
  rewrite (sum32_le key w) by done.
  case_bool_decide as Hin.
  - destruct (sb_dist _ _ _ _ _ _ _ H Hin) as (old & Hold & Hole). rewrite Hold, bind_S.
    destruct (decide (key + w < old)%N) as [Hlt|Hge].
    + assert (y ∉ S) as HyS. { intros Hy. specialize (Hpop y old Hy Hold). lia. }
      assert (exists k0, Q !! y = Some k0) as (k0 & Hk0).
      { apply elem_of_union in Hin as [?|Hin]; [done|]. apply elem_of_dom in Hin as [k0 ?]. eauto. }
      destruct (sb_key _ _ _ _ _ _ H y k0 Hk0) as [Hk0' _]. assert (k0 = old) as -> by congruence.
      destruct (decrease_key_spec _ _ _ y (key + w)%N old (sb_q _ _ _ _ _ _ H) Hk0) as (q' & -> & Hq').
      rewrite decide_True in Hq' by done. rewrite bind_S. cbv beta iota.
      rewrite (wr_Some (s_dist s)) by (rewrite (sb_ld _ _ _ _ _ _ H); done). rewrite bind_S.
      rewrite (wr_Some (s_pnode s)) by (rewrite (sb_ln _ _ _ _ _ _ H); done). rewrite bind_S.
      rewrite (wr_Some (s_parc s)) by (rewrite (sb_la _ _ _ _ _ _ H); done). rewrite bind_S.
      eexists _, (<[y:=(key + w)%N]> Q). split; [done|].
      assert (dom (<[y:=(key + w)%N]> Q) = dom Q) as Hdom.
      { rewrite dom_insert_L. apply elem_of_dom_2 in Hk0. set_solver. }
      assert (forall z, z <> y -> <[y:=(key + w)%N]> (s_dist s) !! z = s_dist s !! z) as Hdne.
      { intros z Hz. by apply list_lookup_insert_ne. }
      assert (<[y:=(key + w)%N]> (s_dist s) !! y = Some (key + w)%N) as Hdeq.
      { apply list_lookup_insert. by rewrite (sb_ld _ _ _ _ _ _ H). }
      split; [|split; [|split]].
      * split; cbn [s_pushed s_queue s_dist s_pnode s_parc].
        -- rewrite insert_length. apply H.
        -- rewrite insert_length. apply H.
        -- rewrite insert_length. apply H.
        -- rewrite Hdom. apply H.
        -- done.
        -- intros z Hz. rewrite lookup_insert_ne by (by intros ->). by apply (sb_disj _ _ _ _ _ _ H).
        -- intros z k Hz. destruct (decide (z = y)) as [->|Hne].
           ++ rewrite lookup_insert in Hz. injection Hz as <-. split; [done|lia].
           ++ rewrite lookup_insert_ne in Hz by done. rewrite Hdne by done. by apply (sb_key _ _ _ _ _ _ H).
        -- intros z Hz. destruct (sb_pop _ _ _ _ _ _ H z Hz) as (d & Hd & Hle & Hqk).
           exists d. rewrite Hdne by (by intros ->). split; [done|]. split; [done|]. intros v k Hv.
           destruct (decide (v = y)) as [->|Hne].
           ++ rewrite lookup_insert in Hv. injection Hv as <-. specialize (Hpop z d Hz Hd). lia.
           ++ rewrite lookup_insert_ne in Hv by done. by eapply Hqk.
        -- intros z d Hz Hd. rewrite Hdom in Hz. destruct (decide (z = y)) as [->|Hne].
           ++ rewrite Hdeq in Hd. injection Hd as <-. right. exists x, a, w, key.
              rewrite list_lookup_insert by (by rewrite (sb_ln _ _ _ _ _ _ H)).
              rewrite list_lookup_insert by (by rewrite (sb_la _ _ _ _ _ _ H)).
              do 4 (split; [done|]). split; [|done]. rewrite Hdne by (intros ->; done). done.
           ++ rewrite Hdne in Hd by done. rewrite !list_lookup_insert_ne by done.
              destruct (sb_pred _ _ _ _ _ _ H z d Hz Hd) as [?|(v & b & w' & dv & ? & ? & ? & Hv & ? & ?)]; [by left|].
              right. exists v, b, w', dv. rewrite Hdne by (by intros ->). done.
        -- intros z d0 Hz. rewrite Hdom. destruct (sb_src _ _ _ _ _ _ H z d0 Hz) as (Hin' & d & Hd & Hle). split; [done|].
           destruct (decide (z = y)) as [->|Hne].
           ++ exists (key + w)%N. split; [done|]. assert (d = old) as -> by congruence. lia.
           ++ exists d. rewrite Hdne by done. done.
        -- intros z v d Hz Hd Hp. rewrite Hdom in Hz. destruct (decide (z = y)) as [->|Hne].
           ++ rewrite Hdeq in Hd. injection Hd as <-. lia.
           ++ rewrite Hdne in Hd by done. rewrite list_lookup_insert_ne in Hp by done. by eapply (sb_inf _ _ _ _ _ _ H).
      * split; cbn [s_dist].
        -- intros z Hz. apply Hdne. by intros ->.
        -- intros z k Hz. destruct (decide (z = y)) as [->|Hne].
           ++ exists (key + w)%N. rewrite lookup_insert. split; [done|]. assert (k = old) as -> by congruence. lia.
           ++ exists k. rewrite lookup_insert_ne by done. split; [done|lia].
      * intros z k Hz. destruct (decide (z = y)) as [->|Hne].
        -- rewrite lookup_insert in Hz. injection Hz as <-. lia.
        -- rewrite lookup_insert_ne in Hz by done. by eapply Hq.
      * intros _. cbn [s_dist]. rewrite Hdom. split; [done|]. exists (key + w)%N. split; [done|lia].
    + exists s, Q. split; [done|]. split; [done|]. split; [apply better_refl|]. split; [done|].
      intros _. split; [done|]. exists old. split; [done|lia].
  - destruct (decide (key + w < inf_weight)%N) as [Hlt|Hge].
    + assert (y ∉ S) as HyS by (intros ?; apply Hin; by apply elem_of_union_l).
      assert (Q !! y = None) as HQy.
      { apply not_elem_of_dom. intros ?. apply Hin. by apply elem_of_union_r. }
      destruct (push_spec _ _ _ y (key + w)%N (sb_q _ _ _ _ _ _ H) Hyn HQy) as (q' & -> & Hq'). rewrite bind_S.
      rewrite (wr_Some (s_dist s)) by (rewrite (sb_ld _ _ _ _ _ _ H); done). rewrite bind_S.
      destruct (f_step_refines n (s_pushed s) _ (FSet y) (sb_f _ _ _ _ _ _ H) Hyn) as (f' & Ef & Hf').
      cbn [f_step f_spec] in Ef, Hf'. rewrite Ef, bind_S.
      rewrite (wr_Some (s_pnode s)) by (rewrite (sb_ln _ _ _ _ _ _ H); done). rewrite bind_S.
      rewrite (wr_Some (s_parc s)) by (rewrite (sb_la _ _ _ _ _ _ H); done). rewrite bind_S.
      eexists _, (<[y:=(key + w)%N]> Q). split; [done|].
      assert (S ∪ dom (<[y:=(key + w)%N]> Q) = {[y]} ∪ (S ∪ dom Q)) as Hdom.
      { rewrite dom_insert_L. set_solver. }
      assert (forall z, z <> y -> <[y:=(key + w)%N]> (s_dist s) !! z = s_dist s !! z) as Hdne.
      { intros z Hz. by apply list_lookup_insert_ne. }
      assert (<[y:=(key + w)%N]> (s_dist s) !! y = Some (key + w)%N) as Hdeq.
      { apply list_lookup_insert. by rewrite (sb_ld _ _ _ _ _ _ H). }
      split; [|split; [|split]].
      * split; cbn [s_pushed s_queue s_dist s_pnode s_parc].
        -- rewrite insert_length. apply H.
        -- rewrite insert_length. apply H.
        -- rewrite insert_length. apply H.
        -- rewrite Hdom. done.
        -- done.
        -- intros z Hz. rewrite lookup_insert_ne by (by intros ->). by apply (sb_disj _ _ _ _ _ _ H).
        -- intros z k Hz. destruct (decide (z = y)) as [->|Hne].
           ++ rewrite lookup_insert in Hz. injection Hz as <-. split; [done|lia].
           ++ rewrite lookup_insert_ne in Hz by done. rewrite Hdne by done. by apply (sb_key _ _ _ _ _ _ H).
        -- intros z Hz. destruct (sb_pop _ _ _ _ _ _ H z Hz) as (d & Hd & Hle & Hqk).
           exists d. rewrite Hdne by (by intros ->). split; [done|]. split; [done|]. intros v k Hv.
           destruct (decide (v = y)) as [->|Hne].
           ++ rewrite lookup_insert in Hv. injection Hv as <-. specialize (Hpop z d Hz Hd). lia.
           ++ rewrite lookup_insert_ne in Hv by done. by eapply Hqk.
        -- intros z d Hz Hd. destruct (decide (z = y)) as [->|Hne].
           ++ rewrite Hdeq in Hd. injection Hd as <-. right. exists x, a, w, key.
              rewrite list_lookup_insert by (by rewrite (sb_ln _ _ _ _ _ _ H)).
              rewrite list_lookup_insert by (by rewrite (sb_la _ _ _ _ _ _ H)).
              do 4 (split; [done|]). split; [|done]. rewrite Hdne by (intros ->; done). done.
           ++ rewrite Hdne in Hd by done. rewrite !list_lookup_insert_ne by done.
              rewrite Hdom in Hz. apply elem_of_union in Hz as [?%elem_of_singleton|Hz]; [done|].
              destruct (sb_pred _ _ _ _ _ _ H z d Hz Hd) as [?|(v & b & w' & dv & ? & ? & ? & Hv & ? & ?)]; [by left|].
              right. exists v, b, w', dv. rewrite Hdne by (by intros ->). done.
        -- intros z d0 Hz. rewrite Hdom. destruct (sb_src _ _ _ _ _ _ H z d0 Hz) as (Hin' & d & Hd & Hle).
           split; [by apply elem_of_union_r|]. exists d. rewrite Hdne; [done|]. intros ->. done.
        -- intros z v d Hz Hd Hp. rewrite Hdom in Hz. destruct (decide (z = y)) as [->|Hne].
           ++ rewrite Hdeq in Hd. injection Hd as <-. lia.
           ++ rewrite Hdne in Hd by done. rewrite list_lookup_insert_ne in Hp by done.
              apply elem_of_union in Hz as [?%elem_of_singleton|Hz]; [done|]. by eapply (sb_inf _ _ _ _ _ _ H).
      * split; cbn [s_dist].
        -- intros z Hz. apply Hdne. by intros ->.
        -- intros z k Hz. exists k. rewrite lookup_insert_ne by (intros ->; congruence). split; [done|lia].
      * intros z k Hz. destruct (decide (z = y)) as [->|Hne].
        -- rewrite lookup_insert in Hz. injection Hz as <-. lia.
        -- rewrite lookup_insert_ne in Hz by done. by eapply Hq.
      * intros _. cbn [s_dist]. rewrite Hdom. split; [by apply elem_of_union_l, elem_of_singleton|].
        exists (key + w)%N. split; [done|lia].
    + exists s, Q. split; [done|]. split; [done|]. split; [apply better_refl|]. split; [done|]. done.
Qed.

Lemma expand_ok ss S Q s x key :
  sbase n g ss S Q s -> x ∈ S -> s_dist s !! x = Some key ->
  (forall z dz, z ∈ S -> s_dist s !! z = Some dz -> (dz <= key)%N) ->
  (forall z k, Q !! z = Some k -> (key <= k)%N) ->
  exists s' Q', expand g x key s = Some s' /\ sbase n g ss S Q' s' /\ better S Q Q' s s' /\ expanded g S Q' s' x.
Proof.
  intros H Hx Hkey Hpop Hq.
  assert (x < n) as Hxn by (eapply sb_lt; [done|by apply elem_of_union_l]).
  destruct (csr_range _ _ _ _ (so_csr _ _ Hg) Hxn) as (lo & hi & Hlo & Hhi & Hle).
  unfold expand. rewrite Hlo, bind_S, Hhi, bind_S.
  destruct (for_range_inv (fun i s' => exists Q', sbase n g ss S Q' s' /\ better S Q Q' s s' /\
      (forall z k, Q' !! z = Some k -> (key <= k)%N) /\
      forall a y w, lo <= a < i -> sarc g a x y w -> (key + w < inf_weight)%N ->
        y ∈ S ∪ dom Q' /\ exists dy, s_dist s' !! y = Some dy /\ (dy <= key + w)%N)
    (expand_arc g x key) lo hi s) as (s' & E & Q' & H' & HB & Hq' & Hd); [lia| | |].
  - exists Q. split; [done|]. split; [apply better_refl|]. split; [done|]. intros a y w ?. lia.
  - intros a s1 Ha (Q1 & H1 & HB1 & Hq1 & Hd1).
    destruct (arc_at x lo hi a Hxn Hlo Hhi Ha) as (y & w & _ & _ & Harc).
    assert (s_dist s1 !! x = Some key) as Hkey1 by (by rewrite (proj1 HB1)).
    destruct (expand_arc_ok ss S Q1 s1 x key a y w) as (s2 & Q2 & E & H2 & HB2 & Hq2 & Hd2); [done..| |done|done|].
    { intros z dz Hz Hdz. rewrite (proj1 HB1) in Hdz by done. by eapply Hpop. }
    exists s2. split; [done|]. exists Q2. split; [done|]. split; [by eapply better_trans|]. split; [done|].
    intros a' y' w' Ha' Harc' Hlt. destruct (decide (a' = a)) as [->|Hne].
    + destruct Harc as (_ & Hh & Hww), Harc' as (_ & Hh' & Hww'). simplify_eq. by apply Hd2.
    + destruct (Hd1 a' y' w') as (Hy & dy & Hdy & Hle'); [lia|done|done|].
      destruct (better_dist _ _ _ _ _ _ _ _ _ _ H1 H2 HB2 Hy Hdy) as (Hy' & dy' & ? & ?).
      split; [done|]. exists dy'. split; [done|lia].
  - exists s', Q'. split; [done|]. split; [done|]. split; [done|].
    intros d a y w Hd' Harc Hlt. rewrite (proj1 HB) in Hd' by done. assert (d = key) as -> by congruence.
    eapply Hd; [|done|done]. destruct Harc as ((lo' & hi' & ? & ? & ?) & _). simplify_eq. done.
Qed.

(** ** Popping *)
Lemma pop_ok ss S Q s :
  sbase n g ss S Q s -> Q <> ∅ ->
  exists x key q', pop (s_queue s) = Some ((x, key), q') /\ x < n /\ x ∉ S /\ Q !! x = Some key /\ (key <= inf_weight)%N /\
    let s' := mkCSide (s_pushed s) q' (s_dist s) (s_pnode s) (s_parc s) in
    sbase n g ss ({[x]} ∪ S) (delete x Q) s' /\
    s_dist s !! x = Some key /\
    ({[x]} ∪ S) ∪ dom (delete x Q) = S ∪ dom Q /\
    (forall z dz, z ∈ {[x]} ∪ S -> s_dist s !! z = Some dz -> (dz <= key)%N) /\
    (forall z k, delete x Q !! z = Some k -> (key <= k)%N).
Proof.
  intros H Hne. destruct (pop_spec _ _ _ (sb_q _ _ _ _ _ _ H) Hne) as (x & key & q' & E & (Hx & Hmin) & Hq').
  assert (x ∈ S ∪ dom Q) as Hxin by (apply elem_of_union_r, elem_of_dom; eauto).
  assert (x ∉ S) as HxS. { intros HS. rewrite (sb_disj _ _ _ _ _ _ H x HS) in Hx. done. }
  destruct (sb_key _ _ _ _ _ _ H x key Hx) as [Hd Hkle].
  assert ({[x]} ∪ S ∪ dom (delete x Q) = S ∪ dom Q) as Hdom.
  { rewrite dom_delete_L. apply set_eq. intros z. rewrite !elem_of_union, elem_of_difference, elem_of_singleton.
    destruct (decide (z = x)) as [->|]; [|tauto]. apply elem_of_union in Hxin. tauto. }
  exists x, key, q'. split; [done|]. split; [by eapply sb_lt|]. split; [done|]. split; [done|]. split; [done|].
  cbv zeta.
  assert (forall z dz, z ∈ {[x]} ∪ S -> s_dist s !! z = Some dz -> (dz <= key)%N) as Hpop.
  { intros z dz [->%elem_of_singleton|Hz]%elem_of_union Hdz; [assert (dz = key) as -> by congruence; lia|].
    destruct (sb_pop _ _ _ _ _ _ H z Hz) as (d & Hd' & _ & Hqk). assert (d = dz) as -> by congruence. by eapply Hqk. }
  split; [|split; [done|split; [done|split; [done|]]]].
  - split; cbn [s_pushed s_queue s_dist s_pnode s_parc]; try apply H.
    + rewrite Hdom. apply H.
    + done.
    + intros z [->%elem_of_singleton|Hz]%elem_of_union; [apply lookup_delete|].
      apply lookup_delete_None. right. by apply (sb_disj _ _ _ _ _ _ H).
    + intros z k (_ & Hz)%lookup_delete_Some. by apply (sb_key _ _ _ _ _ _ H).
    + intros z Hz. assert (exists d, s_dist s !! z = Some d /\ (d <= inf_weight)%N) as (d & Hdz & Hdle).
      { apply (sb_dist _ _ _ _ _ _ _ H). apply elem_of_union in Hz as [->%elem_of_singleton|Hz]; [done|by apply elem_of_union_l]. }
      exists d. split; [done|]. split; [done|]. intros y k (_ & Hy)%lookup_delete_Some.
      specialize (Hpop z d Hz Hdz). specialize (Hmin y k Hy). lia.
    + intros z d Hz Hdz. rewrite Hdom in Hz.
      destruct (sb_pred _ _ _ _ _ _ H z d Hz Hdz) as [?|(v & b & w' & dv & ? & ? & ? & Hv & ? & ?)]; [by left|].
      right. exists v, b, w', dv. do 3 (split; [done|]). split; [by apply elem_of_union_r|done].
    + intros z d0 Hz. rewrite Hdom. by apply (sb_src _ _ _ _ _ _ H).
    + intros z v d Hz. rewrite Hdom in Hz. by apply (sb_inf _ _ _ _ _ _ H).
  - intros z k (_ & Hz)%lookup_delete_Some. by eapply Hmin.
Qed.

(** ** The other direction: stalling *)
Context (o : chside).
Hypothesis Ho : side_ok n o.
Hypothesis Hofit : weights_fit o.
End side.

Lemma can_stall_from_ok n g o ss S Q s x lo hi cnt a :
  side_ok n o -> weights_fit o ->
  sbase n g ss S Q s -> x ∈ S ∪ dom Q ->
  cs_first_out o !! x = Some lo -> cs_first_out o !! Datatypes.S x = Some hi -> lo <= a -> a + cnt = hi ->
  exists b, can_stall_from o s x cnt a = Some b /\ (b = true -> stalled o S Q s x).
Proof.
  intros Ho Hofit H Hx Hlo Hhi. pose proof (sb_lt _ _ _ _ _ _ _ H Hx) as Hxn.
  revert a. induction cnt as [|cnt IH]; intros a Ha Hac; cbn [can_stall_from]; [by exists false|].
  destruct (arc_at n o Ho x lo hi a Hxn Hlo Hhi) as (y & w & Hy & Hw & Harc); [lia|].
  destruct (sarc_lt _ _ _ _ _ _ Ho Harc) as [_ Hyn].
  rewrite Hy, bind_S. rewrite (is_set_spec _ _ _ _ (sb_f _ _ _ _ _ _ H)) by done. rewrite bind_S.
  case_bool_decide as Hin; [|apply IH; lia].
  destruct (sb_dist _ _ _ _ _ _ _ H Hin) as (dy & Hdy & Hdyle). destruct (sb_dist _ _ _ _ _ _ _ H Hx) as (dx & Hdx & Hdxle).
  rewrite Hdy, bind_S, Hw, bind_S, Hdx, bind_S. pose proof (sarc_fit _ _ _ _ _ Hofit Harc) as Hwfit.
  rewrite sum32_le by done. destruct (decide (dy + w <= dx)%N) as [Hle|Hgt]; [|apply IH; lia].
  exists true. split; [done|]. intros _. exists dx, a, y, w, dy. done.
Qed.
Lemma can_stall_ok n g o ss S Q s x :
  side_ok n o -> weights_fit o -> sbase n g ss S Q s -> x ∈ S ∪ dom Q ->
  exists b, can_stall o x s = Some b /\ (b = true -> stalled o S Q s x).
Proof.
  intros Ho Hofit H Hx. pose proof (sb_lt _ _ _ _ _ _ _ H Hx) as Hxn.
  destruct (csr_range _ _ _ _ (so_csr _ _ Ho) Hxn) as (lo & hi & Hlo & Hhi & Hle).
  unfold can_stall. rewrite Hlo, bind_S, Hhi, bind_S. eapply can_stall_from_ok; try done. lia.
Qed.
