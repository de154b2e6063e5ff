(** Removing the arcs whose weight is always infinite, and the constructor as a whole. *)
From Verif Require Import Base UtilSpec GraphSpec PathSpec WalkSpec PermutationModel SortModel GraphUtilModel
  PermutationProofs SortProofs GraphUtilProofs CchModel CchSpec CchCustomizeProofs CchTriangleProofs CchBuildModel
  CchChordalProofs CchBuildProofs CchAssembleProofs.
Ltac Zify.zify_post_hook ::= idtac.

Notation flags := (list bool * list bool)%type.
Definition fl (st : flags) (d : bool) (a : nat) : Prop := (if d then fst st else snd st) !! a = Some true.
(** The input graph upwards or downwards, without weights. *)
Definition dskel (rt rh : list nat) (d : bool) : warcs := if d then skel rt rh else rev_arcs (skel rt rh).

Lemma fl_dec st d a : fl st d a \/ ~ fl st d a.
Proof. unfold fl. destruct ((if d then st.1 else st.2) !! a) as [[]|]; [by left|right|right]; congruence. Qed.

Lemma input_flags_spec count mp up :
  length up = length mp -> (forall a, Some a ∈ mp -> a < count) ->
  exists f g, input_flags count mp up = Some (f, g) /\ length f = count /\ length g = count /\
    forall d a, fl (f, g) d a <-> exists e, used mp up d a e.
Proof.
  intros Hl Hc. unfold input_flags.
  set (body := fun e '(f, g) => _ : option (list bool * list bool)).
  destruct (for_range_inv (fun e '(f, g) => length f = count /\ length g = count /\ forall d a, fl (f, g) d a <-> exists e', e' < e /\ used mp up d a e')
    body 0 (length mp) (replicate count false, replicate count false)) as ([f g] & He & Hf & Hg & H).
  - lia.
  - rewrite replicate_length. split; [done|]. split; [done|]. intros d a. split; [|intros (? & ? & _); lia].
    unfold fl. cbn. intros H. exfalso. destruct d; by apply lookup_replicate in H as [? _].
  - intros e [f g] He (Hf & Hg & H). unfold body. destruct (lookup_lt_is_Some_2 mp e) as [[a|] Hm]; [lia| |]; rewrite Hm; bs; cbv iota.
    + destruct (lookup_lt_is_Some_2 up e) as [b Hb]; [lia|]. rewrite Hb. bs.
      assert (a < count) by (eapply Hc, elem_of_list_lookup_2; eauto).
      assert (forall d' a', (exists e', e' < S e /\ used mp up d' a' e') <-> (d' = b /\ a' = a) \/ exists e', e' < e /\ used mp up d' a' e') as Hs.
      { intros d' a'. split.
        - intros (e' & Hlt & [H1 H2]). destruct (decide (e' = e)) as [->|]; [left; naive_solver|right]. exists e'. split; [lia|done].
        - intros [[-> ->]|(e' & ? & ?)]; [exists e; split; [lia|done]|exists e'; split; [lia|done]]. }
      destruct b; rewrite wr_Some by lia; bs; (eexists (_, _); split; [done|]); cbn beta iota; rewrite insert_length; (split; [done|]; split; [done|]);
        intros d' a'; rewrite Hs, <- H; unfold fl; cbn [fst snd]; destruct d'.
      * destruct (decide (a' = a)) as [->|]; [rewrite list_lookup_insert by lia|rewrite list_lookup_insert_ne by done]; naive_solver.
      * naive_solver.
      * naive_solver.
      * destruct (decide (a' = a)) as [->|]; [rewrite list_lookup_insert by lia|rewrite list_lookup_insert_ne by done]; naive_solver.
    + eexists (f, g). split; [done|]. split; [done|]. split; [done|]. intros d a. rewrite H. split; intros (e' & Hlt & Hu); exists e'; (split; [|done]); [lia|].
      destruct (decide (e' = e)) as [->|]; [|lia]. destruct Hu. congruence.
  - rewrite He. exists f, g. split; [done|]. split; [done|]. split; [done|]. intros d a. rewrite H. split; intros (e & Hu); exists e; [apply Hu|].
    split; [|done]. by eapply lookup_lt_Some, Hu.
Qed.

Lemma flag_triangle_spec count b mi t f g :
  length f = count -> length g = count -> b < count -> mi < count -> t < count -> b <> t -> mi <> t ->
  exists f' g', flag_triangle b mi t (f, g) = Some (f', g') /\ length f' = count /\ length g' = count /\
    forall d a, fl (f', g') d a <-> fl (f, g) d a \/ (a = t /\ fl (f, g) (negb d) b /\ fl (f, g) d mi).
Proof.
  intros Hf Hg Hb Hm Ht Hbt Hmt. unfold flag_triangle.
  destruct (lookup_lt_is_Some_2 f t) as [ft Hft]; [lia|]. destruct (lookup_lt_is_Some_2 g t) as [gt Hgt]; [lia|].
  destruct (lookup_lt_is_Some_2 g b) as [gb Hgb]; [lia|]. destruct (lookup_lt_is_Some_2 f mi) as [fm Hfm]; [lia|].
  destruct (lookup_lt_is_Some_2 f b) as [fb Hfb]; [lia|]. destruct (lookup_lt_is_Some_2 g mi) as [gm Hgm]; [lia|].
  rewrite Hft. bs. rewrite Hgb, Hfm. bs.
  assert (exists f', (if ft then Some f else if gb && fm then wr f t true else Some f) = Some f' /\ length f' = count /\
     f' !! b = Some fb /\ forall a, f' !! a = Some true <-> f !! a = Some true \/ (a = t /\ gb = true /\ fm = true)) as (f' & Hf' & Hlf & Hfb' & Hfl).
  { destruct ft; [|destruct gb, fm; cbn].
    - exists f. split; [done|]. split; [done|]. split; [done|]. intros a. naive_solver.
    - rewrite wr_Some by lia. eexists. split; [done|]. rewrite insert_length. split; [done|]. rewrite list_lookup_insert_ne by done. split; [done|].
      intros a. destruct (decide (a = t)) as [->|]; [rewrite list_lookup_insert by lia|rewrite list_lookup_insert_ne by done]; naive_solver.
    - exists f. split; [done|]. split; [done|]. split; [done|]. intros a. naive_solver.
    - exists f. split; [done|]. split; [done|]. split; [done|]. intros a. naive_solver.
    - exists f. split; [done|]. split; [done|]. split; [done|]. intros a. naive_solver. }
  rewrite Hf'. bs. rewrite Hgt. bs. rewrite Hfb', Hgm. bs.
  assert (exists g', (if gt then Some g else if fb && gm then wr g t true else Some g) = Some g' /\ length g' = count /\
     forall a, g' !! a = Some true <-> g !! a = Some true \/ (a = t /\ fb = true /\ gm = true)) as (g' & Hg' & Hlg & Hgl).
  { destruct gt; [|destruct fb, gm; cbn].
    - exists g. split; [done|]. split; [done|]. intros a. naive_solver.
    - rewrite wr_Some by lia. eexists. split; [done|]. rewrite insert_length. split; [done|].
      intros a. destruct (decide (a = t)) as [->|]; [rewrite list_lookup_insert by lia|rewrite list_lookup_insert_ne by done]; naive_solver.
    - exists g. split; [done|]. split; [done|]. intros a. naive_solver.
    - exists g. split; [done|]. split; [done|]. intros a. naive_solver.
    - exists g. split; [done|]. split; [done|]. intros a. naive_solver. }
  rewrite Hg'. bs. exists f', g'. split; [done|]. split; [done|]. split; [done|].
  intros [] a; unfold fl; cbn [fst snd negb].
  - rewrite Hfl, Hgb, Hfm. naive_solver.
  - rewrite Hgl, Hfb, Hgm. naive_solver.
Qed.

Section Filter.
  Context (n : nat) (rt rh : list nat) (c : cch) (WF : wf_cch n rt rh c).

  Record flinv (closed : nat -> nat -> nat -> Prop) (st : flags) : Prop := {
    fi_f : length (fst st) = length (up_head c);
    fi_g : length (snd st) = length (up_head c);
    fi_sound : forall d a u v, up_arc c a u v -> fl st d a -> exists k, gw (dskel rt rh d) (fun x => x < u) u v 0 k;
    fi_input : forall d a u v e, up_arc c a u v -> dir_arc rt rh d u v e -> fl st d a;
    fi_closed : forall d b mi t, lower_tri c b mi t -> closed b mi t -> fl st (negb d) b -> fl st d mi -> fl st d t }.

  Lemma dskel_rev d P u v k : gw (dskel rt rh (negb d)) P u v 0 k -> gw (dskel rt rh d) P v u 0 k.
  Proof. intros H%gw_rev. eapply gw_sub; [|exact H]. by destruct d. Qed.

  Lemma flinv_step (closed : nat -> nat -> nat -> Prop) st b mi t x y z :
    up_arc c b x y -> up_arc c mi x z -> up_arc c t y z ->
    (forall b' mi' t', lower_tri c b' mi' t' -> closed b' mi' t' -> b' <= b) ->
    flinv closed st ->
    exists st', flag_triangle b mi t st = Some st' /\ flinv (fun b' mi' t' => closed b' mi' t' \/ (b' = b /\ mi' = mi /\ t' = t)) st'.
  Proof.
    intros Hb Hm Ht Hcl [Hf Hg Hs Hi Hc]. destruct st as [f g]. cbn in Hf, Hg.
    pose proof (up_arc_lt _ _ _ _ WF _ _ _ Hb) as Hlb. pose proof (up_arc_lt _ _ _ _ WF _ _ _ Hm) as Hlm. pose proof (up_arc_lt _ _ _ _ WF _ _ _ Ht) as Hlt.
    assert (forall a' v', up_arc c a' x v' -> a' <> t) as Hxt.
    { intros a' v' Ha ->. destruct (up_arc_fun _ _ _ _ _ _ Ha Ht). lia. }
    destruct (flag_triangle_spec (length (up_head c)) b mi t f g) as (f' & g' & He & Hf' & Hg' & Hfl);
      [lia|lia|lia|lia|lia|by eapply Hxt|by eapply Hxt|].
    exists (f', g'). split; [done|]. split; [done|done|..].
    - intros d a u v Ha [Hfl'|(-> & H1 & H2)]%Hfl; [by eapply Hs|].
      destruct (up_arc_fun _ _ _ _ _ _ Ha Ht) as [-> ->].
      destruct (Hs _ _ _ _ Hb H1) as [k Hk]. destruct (Hs _ _ _ _ Hm H2) as [k' Hk']. exists (k + k'). change 0%N with (0 + 0)%N.
      apply (gw_app _ _ y x z).
      + apply dskel_rev in Hk. eapply gw_mono; [|exact Hk]. cbn. lia.
      + lia.
      + eapply gw_mono; [|exact Hk']. cbn. lia.
    - intros d a u v e Ha He'. apply Hfl. left. by eapply Hi.
    - (* arcs with tail at most [x] have not changed *)
      assert (forall d' a u v, up_arc c a u v -> u <= x -> fl (f', g') d' a -> fl (f, g) d' a) as Hun.
      { intros d' a u v Ha Hu [?|(-> & _)]%Hfl; [done|]. destruct (up_arc_fun _ _ _ _ _ _ Ha Ht). lia. }
      intros d b' mi' t' HL HC H1 H2. pose proof HL as (z' & x' & y' & Hb' & Hm' & Ht').
      assert (z' <= x) as Hz.
      { destruct HC as [HC|(-> & -> & ->)].
        - specialize (Hcl _ _ _ HL HC). destruct (le_lt_dec z' x); [done|].
          pose proof (up_arc_tail_lt _ _ _ _ WF _ _ _ _ _ _ Hb Hb' ltac:(lia)). lia.
        - destruct (up_arc_fun _ _ _ _ _ _ Hb Hb'). lia. }
      specialize (Hun (negb d) b' z' x' Hb' Hz H1) as H1'. specialize (Hun d mi' z' y' Hm' Hz H2) as H2'.
      apply Hfl. destruct HC as [HC|(-> & -> & ->)]; [left; by eapply Hc|]. by right.
  Qed.

  Lemma triangle_flags_spec fo ut uh st :
    up_first_out c = fo -> up_tail c = ut -> up_head c = uh ->
    flinv (fun _ _ _ => False) st ->
    exists st', triangle_flags (up_only fo ut uh) (length ut) st = Some st' /\ flinv (fun _ _ _ => True) st'.
  Proof.
    intros Hfo Hut Huh HI. unfold triangle_flags.
    assert (length ut = length uh) as Hl. { rewrite <- Hut, <- Huh. apply (wf_tails _ _ _ _ WF). }
    destruct (for_range_inv (fun a st => flinv (fun b _ _ => b < a) st) (fun a st =>
      '(st, _) ← forall_upper_triangles_of_arc (up_only fo ut uh) a
        (fun bottom mid top _ _ _ st => st ← flag_triangle bottom mid top st; Some (st, true)) st;
      Some st) 0 (length ut) st) as (st' & He & HI').
    - lia.
    - destruct HI as [? ? ? ? Hc]. split; try done. intros ? ? ? ? ?. lia.
    - intros a s Ha Hs. destruct (up_arc_exists _ _ _ _ WF a) as (x & y & Hxy); [rewrite Huh; lia|].
      destruct (upper_triangles_list _ _ _ _ WF x y a Hxy) as (l & Hl2 & Hf).
      assert (forall St (f : triangle_fn St) s, forall_upper_triangles_of_arc (up_only fo ut uh) a f s =
         for_until l (fun p => f a (fst (fst p)) (snd (fst p)) x y (snd p)) s) as Hf'.
      { intros St f s'. rewrite <- Hf. unfold forall_upper_triangles_of_arc, forall_upper_triangles, up_only. cbn.
        rewrite <- Hfo, <- Hut, <- Huh. destruct Hxy as [-> ->]. bs. done. }
      rewrite Hf'. clear Hf Hf'.
      destruct (for_until_inv (fun pre st => flinv (fun b mi t => b < a \/ (b = a /\ exists z, (mi, t, z) ∈ pre)) st) l
        (fun p st => st ← flag_triangle a (fst (fst p)) (snd (fst p)) st; Some (st, true)) s) as (s' & Hu & HI').
      + destruct Hs as [? ? ? ? Hc]. split; try done. intros d b mi t HL [?|(_ & z & ?%elem_of_nil)]; [|done]. by apply Hc.
      + intros pre [[mi t] z] post s1 -> HI1. cbn [fst snd].
        destruct (proj1 (Hl2 mi t z)) as [Hmi Ht]; [rewrite elem_of_app, elem_of_cons; auto|].
        destruct (flinv_step (fun b mi t => b < a \/ (b = a /\ exists z, (mi, t, z) ∈ pre)) s1 a mi t x y z Hxy Hmi Ht) as (s2 & Hs2 & HI2);
          [intros b' mi' t' _ [?|[? _]]; lia|exact HI1|].
        rewrite Hs2. bs. exists s2. split; [done|]. destruct HI2 as [? ? ? ? Hc]. split; try done.
        intros d b' mi' t' HL HC. apply (Hc d _ mi'); [done|]. destruct HC as [?|(-> & z' & Hin)]; [by left; left|].
        apply elem_of_app in Hin as [Hin|Hin]; [left; right; split; [done|by exists z']|].
        apply elem_of_list_singleton in Hin as [= -> -> ->]. by right.
      + rewrite Hu. bs. cbv iota. exists s'. split; [done|]. destruct HI' as [? ? ? ? Hc]. split; try done.
        intros d b mi t HL Hb. apply Hc; [done|]. destruct (decide (b = a)) as [->|]; [right|left; lia]. split; [done|].
        destruct HL as (z & x' & y' & H1 & H2 & H3). destruct (up_arc_fun _ _ _ _ _ _ H1 Hxy) as [-> ->]. exists y'. apply Hl2. done.
    - exists st'. split; [done|]. destruct HI' as [? ? ? ? Hc]. split; try done. intros d b mi t HL _. apply Hc; [done|].
      destruct HL as (z & x & y & [Hb _] & _). apply lookup_lt_Some in Hb. by rewrite <- Hut.
  Qed.

  Lemma flags_complete st u v L k :
    flinv (fun _ _ _ => True) st -> u <> v -> gw (skel rt rh) (below u v) u v L k ->
    exists a, up_arc c a (u `min` v) (u `max` v) /\ fl st (bool_decide (u < v)) a.
  Proof.
    intros [_ _ _ Hi Hc]. revert u v L. induction (lt_wf k) as [k _ IH]. intros u v L Hne H.
    destruct (wf_complete _ _ _ _ WF _ _ _ _ Hne H) as [a Ha]. exists a. split; [done|].
    destruct (gw_split _ _ _ _ _ _ H) as [[(_ & e & He1 & He2) _]|(z & L1 & L2 & k1 & k2 & [Hzu Hzv] & H1 & H2 & _ & Hk)].
    - apply (Hi _ _ _ _ e Ha). destruct (lt_dec u v).
      + rewrite bool_decide_true by done. rewrite Nat.min_l, Nat.max_r by lia. done.
      + rewrite bool_decide_false by done. rewrite Nat.min_r, Nat.max_l by lia. done.
    - pose proof (gw_pos _ _ _ _ _ _ H1). pose proof (gw_pos _ _ _ _ _ _ H2).
      destruct (IH k1 ltac:(lia) u z L1 ltac:(lia)) as (a1 & Ha1 & Hf1). { eapply gw_mono; [|exact H1]. unfold below. cbn. lia. }
      destruct (IH k2 ltac:(lia) z v L2 ltac:(lia)) as (a2 & Ha2 & Hf2). { eapply gw_mono; [|exact H2]. unfold below. cbn. lia. }
      rewrite Nat.min_r, Nat.max_l in Ha1 by lia. rewrite Nat.min_l, Nat.max_r in Ha2 by lia.
      rewrite bool_decide_false in Hf1 by lia. rewrite bool_decide_true in Hf2 by lia.
      destruct (lt_dec u v).
      + rewrite bool_decide_true by done. rewrite Nat.min_l, Nat.max_r in Ha by lia. apply (Hc true a1 a2 a); [|done..]. by exists z, u, v.
      + rewrite bool_decide_false by done. rewrite Nat.min_r, Nat.max_l in Ha by lia. apply (Hc false a2 a1 a); [|done..]. by exists z, v, u.
  Qed.
End Filter.

Lemma select_lexlt k a b : length a = length b -> lexlt a b -> lexlt (select (fun x => x) k a) (select (fun x => x) k b).
Proof.
  intros Hl Hlex i j t h t' h' Hij Hi Hi' Hj Hj'.
  destruct (select_index _ _ _ _ Hi) as (x & Hx & Hxa & Hxi), (select_index _ _ _ _ Hi') as (x' & Hx' & Hxb & Hxi').
  destruct (select_index _ _ _ _ Hj) as (y & Hy & Hya & Hyj), (select_index _ _ _ _ Hj') as (y' & Hy' & Hyb & Hyj').
  assert (x' = x) as -> by (by eapply local_id_inj). assert (y' = y) as -> by (by eapply local_id_inj).
  eapply Hlex; [|exact Hxa|exact Hxb|exact Hya|exact Hyb]. by apply (local_id_mono k _ _ _ _ Hxi Hyj).
Qed.
Lemma select_length {T T'} k (a : list T) (b : list T') : length a = length b -> length (select (fun x => x) k a) = length (select (fun x => x) k b).
Proof. revert a b. induction k as [|[] k IH]; intros [|x a] [|y b] H; cbn in *; try done; [f_equal|]; apply IH; lia. Qed.

(** The filter keeps the arcs that have an input path below them. *)
Lemma filter_up_spec n rt rh fo ut uh mp up c :
  wf_cch n rt rh c -> up_first_out c = fo -> up_tail c = ut -> up_head c = uh -> in_to_cch c = mp -> in_upward c = up ->
  uparcs n ut uh -> mapped rt rh ut uh mp up ->
  exists fo' ut' uh' mp', filter_up n fo ut uh mp up = Some (fo', ut', uh', mp') /\
    uparcs n ut' uh' /\ csr n fo' uh' /\ (forall x j, out_arc fo' x j <-> ut' !! j = Some x) /\ mapped rt rh ut' uh' mp' up /\
    (forall u v, has_arc ut' uh' u v -> has_arc ut uh u v) /\
    (forall u v L k, u <> v -> gw (skel rt rh) (below u v) u v L k -> has_arc ut' uh' (u `min` v) (u `max` v)) /\
    (forall u v, has_arc ut' uh' u v -> exists d k, gw (dskel rt rh d) (fun x => x < u) u v 0 k).
Proof.
  intros WF Hfo Hut Huh Hmp Hup HU HM. pose proof (ua_len _ _ _ HU) as Hl. pose proof (ua_lex _ _ _ HU) as Hlex. pose proof (ua_range _ _ _ HU) as Hrange.
  destruct (wf_ends _ _ _ _ WF) as (Hends & _ & _).
  assert (forall e a, mp !! e = Some (Some a) -> exists u v, rt !! e = Some u /\ rh !! e = Some v /\ u <> v /\
     ut !! a = Some (u `min` v) /\ uh !! a = Some (u `max` v) /\ up !! e = Some (bool_decide (u < v))) as Hmpa.
  { intros e a He. assert (e < length rt) as Hlt by (apply lookup_lt_Some in He; rewrite (ma_mp _ _ _ _ _ _ HM) in He; done).
    destruct (lookup_lt_is_Some_2 rt e) as [u Hu]; [done|]. destruct (lookup_lt_is_Some_2 rh e) as [v Hv]; [lia|]. exists u, v.
    split; [done|]. split; [done|]. destruct (decide (u = v)) as [<-|Hne].
    { pose proof (ma_loop _ _ _ _ _ _ HM _ _ Hu Hv). congruence. }
    destruct (ma_arc _ _ _ _ _ _ HM _ _ _ Hu Hv Hne) as (a' & Ha & Ha1 & Ha2). assert (a' = a) as -> by congruence.
    split; [done|]. split; [done|]. split; [done|]. by eapply ma_dir. }
  assert (forall d a u v e, up_arc c a u v -> dir_arc rt rh d u v e -> used mp up d a e) as Hused1.
  { intros d a u v e [Hu Hv] He. rewrite Hut in Hu. rewrite Huh in Hv. destruct (Hrange u v) as [Huv _]; [by exists a|].
    destruct d; destruct He as [H1 H2].
    + destruct (ma_arc _ _ _ _ _ _ HM e u v) as (a' & Ha & Ha1 & Ha2); [done|done|lia|]. rewrite Nat.min_l in Ha1 by lia. rewrite Nat.max_r in Ha2 by lia.
      assert (a' = a) as -> by (by eapply (lexlt_distinct _ _ Hlex)). split; [done|]. rewrite (ma_dir _ _ _ _ _ _ HM e u v) by done. by rewrite bool_decide_true.
    + destruct (ma_arc _ _ _ _ _ _ HM e v u) as (a' & Ha & Ha1 & Ha2); [done|done|lia|]. rewrite Nat.min_r in Ha1 by lia. rewrite Nat.max_l in Ha2 by lia.
      assert (a' = a) as -> by (by eapply (lexlt_distinct _ _ Hlex)). split; [done|]. rewrite (ma_dir _ _ _ _ _ _ HM e v u) by done. rewrite bool_decide_false by lia. done. }
  unfold filter_up.
  destruct (input_flags_spec (length ut) mp up) as (f & g & Hfl & Hf & Hg & Hflag).
  { rewrite (ma_up _ _ _ _ _ _ HM), (ma_mp _ _ _ _ _ _ HM). done. }
  { intros a [e He]%elem_of_list_lookup_1. destruct (Hmpa e a He) as (u & v & _ & _ & _ & H & _). by eapply lookup_lt_Some. }
  rewrite Hfl. bs.
  destruct (triangle_flags_spec n rt rh c WF fo ut uh (f, g)) as ([f2 g2] & Ht & HI); try done.
  { split; cbn; rewrite ?Huh; try lia.
    - intros d a u v Ha (e & Hm & Hd)%Hflag. destruct (Hmpa e a Hm) as (x & y & Hx & Hy & Hne & H1 & H2 & H3).
      destruct Ha as [Ha1 Ha2]. rewrite Hut in Ha1. rewrite Huh in Ha2. rewrite Hd in H3. simplify_eq. exists 1. constructor.
      destruct (lt_dec x y).
      + rewrite bool_decide_true by done. rewrite Nat.min_l, Nat.max_r by lia. split; [done|]. by exists e.
      + rewrite bool_decide_false by done. rewrite Nat.min_r, Nat.max_l by lia. split; [done|]. by exists e.
    - intros d a u v e Ha He. apply Hflag. exists e. by eapply Hused1.
  }
  rewrite Ht. bs. cbv iota. set (keep := zip_with orb f2 g2).
  pose proof (fi_f _ _ _ _ _ HI) as Hf2. pose proof (fi_g _ _ _ _ _ HI) as Hg2. cbn in Hf2, Hg2.
  assert (length keep = length uh) as Hkl. { unfold keep. rewrite zip_with_length. rewrite Hf2, Hg2, Huh. lia. }
  assert (forall a, keep !! a = Some true <-> exists d, fl (f2, g2) d a) as Hkeep.
  { intros a. unfold keep, fl. rewrite lookup_zip_with. split.
    - destruct (f2 !! a) as [x|] eqn:H1; [|done]. destruct (g2 !! a) as [y|] eqn:H2; [|done]. cbn. intros [= Hxy].
      destruct x; [by exists true|]. destruct y; [by exists false|done].
    - intros [d Hd]. assert (a < length uh) as Ha. { destruct d; cbn in Hd; apply lookup_lt_Some in Hd; rewrite <- Huh; lia. }
      destruct (lookup_lt_is_Some_2 f2 a) as [x Hx]; [rewrite Hf2, Huh; lia|]. destruct (lookup_lt_is_Some_2 g2 a) as [y Hy]; [rewrite Hg2, Huh; lia|].
      rewrite Hx, Hy. cbn. destruct d; cbn in Hd; [rewrite Hx in Hd|rewrite Hy in Hd]; simplify_eq; by rewrite ?orb_true_r. }
  unfold keep_element_of_vector_if. rewrite !inplace_filter_correct by lia. bs.
  set (ut' := select (fun b => b) keep ut). set (uh' := select (fun b => b) keep uh).
  assert (forall u v, has_arc ut' uh' u v -> exists a, keep !! a = Some true /\ ut !! a = Some u /\ uh !! a = Some v) as Hsub.
  { intros u v H. apply select_has_arc in H; [|done]. done. }
  assert (uparcs n ut' uh') as HU'.
  { split; [by apply select_length|by apply select_lexlt|]. intros t h (a & _ & ? & ?)%Hsub. apply Hrange. by exists a. }
  destruct (uparcs_index _ _ _ HU') as (fo' & Hfo' & Hcsr & Hout). rewrite Hfo'. bs.
  assert (forall a u v, keep !! a = Some true -> ut !! a = Some u -> uh !! a = Some v -> exists i, local_id keep a = Some i /\ ut' !! i = Some u /\ uh' !! i = Some v) as Hin.
  { intros a u v Hk Hu Hv. destruct (select_local _ _ _ _ Hk Hu) as (i & Hi & Hiu), (select_local _ _ _ _ Hk Hv) as (i' & Hi' & Hiv).
    assert (i' = i) as -> by congruence. by exists i. }
  set (F := fun o => match o with None => Some None | Some a => i ← local_id keep a; Some (Some i) end).
  assert (forall e a, mp !! e = Some (Some a) -> keep !! a = Some true) as Hmk.
  { intros e a He. destruct (Hmpa e a He) as (u & v & Hu & Hv & Hne & H1 & H2 & H3). apply Hkeep. exists (bool_decide (u < v)).
    eapply (fi_input _ _ _ _ _ HI _ a (u `min` v) (u `max` v) e); [by split; [rewrite Hut|rewrite Huh]|]. destruct (lt_dec u v).
    - rewrite bool_decide_true by done. rewrite Nat.min_l, Nat.max_r by lia. done.
    - rewrite bool_decide_false by done. rewrite Nat.min_r, Nat.max_l by lia. done. }
  destruct (mapM_is_Some_2 F mp) as [mp' Hmp'].
  { apply Forall_forall. intros [a|] [e He]%elem_of_list_lookup_1; [|by eexists]. unfold F.
    destruct (local_id_lt keep a) as (i & Hi & _); [by eapply Hmk|]. cbn. rewrite Hi. by eexists. }
  rewrite Hmp'. bs. apply mapM_Some in Hmp'. pose proof (Forall2_length _ _ _ Hmp') as Hml.
  assert (forall u v L k, u <> v -> gw (skel rt rh) (below u v) u v L k -> has_arc ut' uh' (u `min` v) (u `max` v)) as Hcomp.
  { intros u v L k Hne Hw. destruct (flags_complete n rt rh c WF _ _ _ _ _ HI Hne Hw) as (a & [Ha1 Ha2] & Hfa). rewrite Hut in Ha1. rewrite Huh in Ha2.
    destruct (Hin a (u `min` v) (u `max` v)) as (i & _ & ? & ?); [apply Hkeep; eauto|done|done|by exists i]. }
  exists fo', ut', uh', mp'. split; [done|]. split; [done|]. split; [done|]. split; [done|]. split; [|split; [|split]].
  - split.
    + rewrite <- Hml. by eapply ma_mp.
    + by eapply ma_up.
    + intros e u v Hu Hv Hne. destruct (ma_arc _ _ _ _ _ _ HM _ _ _ Hu Hv Hne) as (a & Ha & H1 & H2).
      destruct (Hin a _ _ (Hmk _ _ Ha) H1 H2) as (i & Hi & Hi1 & Hi2). exists i. split; [|done].
      destruct (Forall2_lookup_l _ _ _ _ _ Hmp' Ha) as (o & Ho & HF). unfold F in HF. rewrite Hi in HF. cbn in HF. by simplify_eq.
    + intros e u Hu Hv. pose proof (ma_loop _ _ _ _ _ _ HM _ _ Hu Hv) as Ha.
      destruct (Forall2_lookup_l _ _ _ _ _ Hmp' Ha) as (o & Ho & HF). cbn in HF. by simplify_eq.
    + by eapply ma_dir.
  - intros u v (a & _ & ? & ?)%Hsub. by exists a.
  - done.
  - intros u v (a & Hk & Hu & Hv)%Hsub. apply Hkeep in Hk as [d Hd]. exists d. eapply (fi_sound _ _ _ _ _ HI _ a); [|done]. by split; [rewrite Hut|rewrite Huh].
Qed.

(** ** The constructor *)
(** Nodes renamed to ranks. *)
Definition ranked (rank : list nat) (l rl : list nat) : Prop := length rl = length l /\ forall i x, l !! i = Some x -> rl !! i = rank !! x.

Record built (order tail head rt rh : list nat) (c : cch) : Prop := {
  bu_order : c_order c = order;
  bu_rank : inverse_of order (c_rank c);
  bu_tail : ranked (c_rank c) tail rt;
  bu_head : ranked (c_rank c) head rh;
  bu_wf : wf_cch (length order) rt rh c }.

Lemma ranked_elem rank l rl n : perm rank -> length rank = n -> ranked rank l rl -> (forall x, x ∈ l -> x < n) -> forall x, x ∈ rl -> x < n.
Proof.
  intros Hp Hn [Hl H] Hx y [i Hi]%elem_of_list_lookup_1. destruct (lookup_lt_is_Some_2 l i) as [x Hlx]; [apply lookup_lt_Some in Hi; lia|].
  rewrite (H _ _ Hlx) in Hi. rewrite <- Hn. by eapply perm_lookup_lt.
Qed.

Theorem build_cch_spec asserts log filter_arcs order tail head :
  perm order -> length tail = length head -> (forall x, x ∈ tail -> x < length order) -> (forall x, x ∈ head -> x < length order) ->
  filter_arcs || log = true -> (log = true -> length order <> 0) ->
  exists c rt rh, build_cch asserts log filter_arcs order tail head = Some c /\ built order tail head rt rh c /\
    exists U, chordal (length order) (sym_adj rt rh) U /\
      (forall x y, c_parent c !! x = Some (Some y) <-> U x y /\ forall z, U x z -> y <= z) /\
      (forall x y, U x y -> ancestor (c_parent c) x y) /\
      if filter_arcs
      then (forall u v, (exists a, up_arc c a u v) <-> U u v /\ exists d k, gw (dskel rt rh d) (fun x => x < u) u v 0 k)
      else forall u v, (exists a, up_arc c a u v) <-> U u v.
Proof.
  intros Hp Hl Ht Hh Hopt Hlog. unfold build_cch. set (n := length order) in *.
  destruct (invert_permutation_correct order Hp) as (rank & Hr & Hinv & Hrp). rewrite Hr. bs.
  assert (length rank = n) as Hrl by apply Hinv.
  destruct (apply_to_elements_correct rank tail) as (rt & Hrt & Hrtl & Hrte); [by rewrite Hrl|]. rewrite Hrt. bs.
  destruct (apply_to_elements_correct rank head) as (rh & Hrh & Hrhl & Hrhe); [by rewrite Hrl|]. rewrite Hrh. bs.
  assert (ranked rank tail rt) as Hkt by done. assert (ranked rank head rh) as Hkh by done.
  assert (forall x, x ∈ rt -> x < n) as Hrtn by (by eapply ranked_elem).
  assert (forall x, x ∈ rh -> x < n) as Hrhn by (by eapply ranked_elem).
  destruct (sort_direct asserts n rt rh) as (ids & it & Hs & Hids & Hil & Hit & Hv & Hle); [lia|done|done|].
  rewrite Hs. bs. cbv iota. destruct (Hv rh) as (ih & Hihe & Hih); [lia|]. rewrite Hihe. bs. specialize (Hle _ Hih).
  assert (forall t h, has_arc it ih t h <-> has_arc rt rh t h) as Harc by (intros t h; by apply (perm_has_arc ids)).
  destruct (build_up_spec asserts n it ih) as (fo & ut & uh & Hbu & HU & Hcsr & Hout & HC).
  { rewrite (proj1 Hit), (proj1 Hih). done. } { intros x ?. by eapply Hrtn, permuted_elem. } { intros x ?. by eapply Hrhn, permuted_elem. }
  rewrite Hbu. bs. cbv iota.
  apply (chordal_iff n _ (sym_adj rt rh) _ (has_arc ut uh)) in HC; [|intros x y; unfold sym_adj; by rewrite !Harc|done].
  destruct (map_input_spec asserts n rt rh ids it ih ut uh) as (mp & up & Hmi & HM); try done; [lia| |].
  { intros t h Ha Hne. destruct (lt_dec t h).
    - rewrite Nat.min_l, Nat.max_r by lia. eapply ch_adj; [done|done|]. split; [done|by left].
    - rewrite Nat.min_r, Nat.max_l by lia. eapply ch_adj; [done|lia|]. split; [done|by right]. }
  rewrite Hmi. bs. cbv iota.
  destruct (elimination_tree_spec n fo ut uh HU Hcsr Hout) as (parent & Hpe & Hpl & Hpar). rewrite Hpe. bs.
  assert (forall x y, has_arc ut uh x y -> ancestor parent x y) as Hanc.
  { eapply tree_ancestor; [exact HC|done|]. intros x y. apply has_arc_min. }
  assert (forall x p, parent !! x = Some (Some p) -> x < p < n) as Hpr.
  { intros x p [H _]%Hpar. by eapply ua_range. }
  assert (forall u v L k, u <> v -> gw (skel rt rh) (below u v) u v L k -> has_arc ut uh (u `min` v) (u `max` v)) as Hcomp.
  { intros u v L k Hne Hw. eapply (chordal_complete n (sym_adj rt rh) (has_arc rt rh)); [done| |done|exact Hw].
    intros x y Ha Hxy. split; (split; [done|]); auto. }
  replace (chk (negb log || bool_decide (n <> 0))) with (Some tt).
  2: { destruct log; [|done]. rewrite bool_decide_true; [done|]. by apply Hlog. }
  bs. rewrite Hopt. cbn [chk]. bs.
  destruct (assemble_spec asserts order rank parent fo ut uh mp up n rt rh) as (c0 & Hc0 & WF0 & E1 & E2 & E3 & E4 & E5 & E6 & E7 & E8); try done; [lia|].
  destruct filter_arcs.
  - destruct (filter_up_spec n rt rh fo ut uh mp up c0) as (fo' & ut' & uh' & mp' & Hf & HU' & Hcsr' & Hout' & HM' & Hsub & Hcomp' & Hsound); try done.
    rewrite Hf. bs. cbv iota.
    destruct (assemble_spec asserts order rank parent fo' ut' uh' mp' up n rt rh) as (c & Hc & WF & F1 & F2 & F3 & F4 & F5 & F6 & F7 & F8); try done; [lia| |].
    { intros u v H%Hsub. by apply Hanc. }
    rewrite Hc. exists c, rt, rh. split; [done|]. split; [split; try done; by rewrite F2|].
    exists (has_arc ut uh). split; [done|]. rewrite F3. split; [done|]. split; [done|].
    intros u v. unfold up_arc. rewrite F5, F6. split.
    + intros H. split; [by apply Hsub|by apply Hsound].
    + intros [H (d & k & Hw)]. destruct (ua_range _ _ _ HU _ _ H).
      assert (exists u' v', u' <> v' /\ u' `min` v' = u /\ u' `max` v' = v /\ gw (skel rt rh) (below u' v') u' v' 0 k) as (u' & v' & Hne & <- & <- & Hw').
      { destruct d.
        - exists u, v. split; [lia|]. split; [lia|]. split; [lia|]. eapply gw_mono; [|exact Hw]. unfold below. cbn. lia.
        - exists v, u. split; [lia|]. split; [lia|]. split; [lia|]. eapply gw_mono; [|exact (gw_rev' _ _ _ _ _ _ Hw)]. unfold below. cbn. lia. }
      destruct (Hcomp' _ _ _ _ Hne Hw') as (a & ? & ?). by exists a.
  - bs. cbv iota. rewrite Hc0. exists c0, rt, rh. split; [done|]. split; [split; try done; by rewrite E2|].
    exists (has_arc ut uh). split; [done|]. rewrite E3. split; [done|]. split; [done|].
    intros u v. unfold up_arc. rewrite E5, E6. done.
Qed.
