(** What the invariants of the asynchronous reader yield for its executions. *)
From Verif Require Import Base AsyncReaderModel AsyncReaderSpec AsyncReaderProofs.

Ltac Zify.zify_post_hook ::= idtac.

Section Reader.
  Context (B : nat) (HB : 0 < B).
  Notation ring := (ring B).
  Notation in_buffer := (in_buffer B).
  Notation inv := (inv B).

  Lemma run_inv buf evs s : length buf = 6 * B -> run B (reader_init buf) evs s -> exists D T l, inv evs s D T l.
  Proof using HB.
    intros Hb Hr. remember (reader_init buf) as s0. induction Hr as [|s evs s' ev s'' Hr IH Hs]; subst.
    - exists [], 0, 0. by apply inv_init.
    - destruct (IH eq_refl) as (D & T & l & Hi). destruct (step_inv B HB _ _ _ _ _ _ _ Hi Hs) as (D' & T' & l' & _ & Hi'). eauto.
  Qed.
  Lemma run_snoc_inv s0 evs ev s : run B s0 (evs ++ [ev]) s -> exists s', run B s0 evs s' /\ step B s' ev s.
  Proof using.
    intros H. remember (evs ++ [ev]) as evs' eqn:Heq. destruct H as [s|s evs1 s' ev1 s'' Hr Hs].
    - by destruct evs.
    - apply app_inj_tail in Heq as [-> ->]. eauto.
  Qed.
  Lemma run_app s0 evs1 evs2 s : run B s0 (evs1 ++ evs2) s -> exists s1, run B s0 evs1 s1 /\ run B s1 evs2 s.
  Proof using.
    revert s. induction evs2 as [|ev evs2 IH] using rev_ind; intros s Hr.
    - rewrite app_nil_r in Hr. exists s. split; [done|constructor].
    - rewrite app_assoc in Hr. destruct (run_snoc_inv _ _ _ _ Hr) as (s' & Hr' & Hs).
      destruct (IH _ Hr') as (s1 & H1 & H2). exists s1. split; [done|]. by apply (run_snoc B s1 evs2 s').
  Qed.
  Lemma run_one s ev s' : run B s [ev] s' -> step B s ev s'.
  Proof using.
    intros Hr. destruct (run_snoc_inv s [] ev s' Hr) as (s1 & Hn & Hs). remember [] as evs eqn:E. destruct Hn; [done|].
    by destruct evs.
  Qed.

  Lemma take_prefix (D D' : list N) n : D `prefix_of` D' -> n <= length D -> take n D' = take n D.
  Proof using. intros [k ->] Hn. by apply take_app_le. Qed.

  (** The last block that was returned. *)
  Lemma run_last buf evs1 p bs evs2 s :
    length buf = 6 * B -> run B (reader_init buf) (evs1 ++ Block p bs :: evs2) s -> Forall (fun ev => is_block ev = false) evs2 ->
    exists D T l, inv (evs1 ++ Block p bs :: evs2) s D T l /\ l = length bs /\ p = (T - l) mod ring /\ take (T - l) D ++ bs = take T D.
  Proof using HB.
    intros Hb. revert s. induction evs2 as [|ev evs2 IH] using rev_ind; intros s Hr Hnb.
    - destruct (run_snoc_inv _ _ _ _ Hr) as (s1 & Hr1 & Hs).
      destruct (run_inv _ _ _ Hb Hr1) as (D & T & l & Hi).
      destruct (step_inv B HB _ _ _ _ _ _ _ Hi Hs) as (D' & T' & l' & Htr & Hi').
      cbn in Htr. destruct Htr as (-> & HT' & -> & ->).
      exists D, T', (length bs). split; [done|]. split; [done|]. replace (T' - length bs) with T by lia. split; [done|].
      rewrite <- (i_ret _ _ _ _ _ _ Hi'), returned_snoc, (i_ret _ _ _ _ _ _ Hi). done.
    - rewrite app_comm_cons, app_assoc in Hr |- *. apply Forall_app in Hnb as [Hnb1 Hnb2].
      destruct (run_snoc_inv _ _ _ _ Hr) as (s1 & Hr1 & Hs).
      destruct (IH _ Hr1 Hnb1) as (D & T & l & Hi & -> & -> & Hbs).
      destruct (step_inv B HB _ _ _ _ _ _ _ Hi Hs) as (D' & T' & l' & Htr & Hi').
      assert (D `prefix_of` D' /\ T' = T /\ l' = length bs) as (Hpre & -> & ->).
      { apply Forall_inv in Hnb2. by destruct ev. }
      exists D', T, (length bs). split; [done|]. split; [done|]. split; [done|].
      pose proof (i_T _ _ _ _ _ _ Hi) as HT. rewrite !(take_prefix D D') by (done || lia). done.
  Qed.

  (** It is still in the buffer. *)
  Lemma block_stable buf evs1 p bs evs2 s :
    length buf = 6 * B -> run B (reader_init buf) (evs1 ++ Block p bs :: evs2) s -> Forall (fun ev => is_block ev = false) evs2 ->
    slice (r_buf s) p (length bs) = Some bs.
  Proof using HB.
    intros Hb Hr Hnb. destruct (run_last _ _ _ _ _ _ Hb Hr Hnb) as (D & T & l & Hi & -> & -> & Hbs).
    assert (0 < ring) as HR by (unfold AsyncReaderModel.ring; lia).
    pose proof (Nat.mod_upper_bound (T - length bs) ring ltac:(lia)) as Hub.
    pose proof (i_T _ _ _ _ _ _ Hi) as HT. pose proof (i_l _ _ _ _ _ _ Hi) as Hl. pose proof (i_len _ _ _ _ _ _ Hi) as Hlen.
    destruct (slice_ok (r_buf s) ((T - length bs) mod ring) (length bs)) as [bs' Hbs'].
    { unfold AsyncReaderModel.ring in *. lia. }
    rewrite Hbs'. f_equal.
    pose proof (returned_block B HB (r_buf s) D bs' (T - length bs) 0 (length bs) ltac:(lia) ltac:(lia) Hbs') as H.
    rewrite Nat.sub_add in H by lia. rewrite <- Hbs in H. apply app_inv_head in H; [done|].
    intros j x Hj HDj. apply (i_data _ _ _ _ _ _ Hi); [lia|done].
  Qed.

  Lemma mod_wrap x k : k < ring -> x mod ring + k < 2 * ring -> (x mod ring + k) mod ring = (x + k) mod ring.
  Proof using HB. intros Hk _. assert (ring <> 0) by (unfold AsyncReaderModel.ring; lia). by rewrite Nat.add_mod_idemp_l. Qed.

  Lemma writes_pos evs s D T l i :
    inv evs s D T l -> worker_writes B s i -> exists k, k < B /\ i mod ring = (length D + k) mod ring /\ length D <= T + 3 * B.
  Proof using HB.
    intros Hi Hw. assert (ring <> 0) as HR by (unfold AsyncReaderModel.ring; lia).
    pose proof (i_end _ _ _ _ _ _ Hi) as He. pose proof (i_pend _ _ _ _ _ _ Hi) as [Hp _].
    pose proof (i_room _ _ _ _ _ _ Hi) as Hroom. pose proof (Nat.mod_upper_bound (length D) ring HR) as Hub.
    rewrite <- He in Hub.
    unfold worker_writes in Hw. destruct (r_w s) as [| | | | |bs|bs| | |]; try done; cbn in Hroom, Hp; specialize (Hroom eq_refl).
    - exists (i - r_end s). split; [lia|]. split; [|lia]. rewrite <- Nat.add_mod_idemp_l by done. rewrite <- He. f_equal. lia.
    - destruct Hw as [_ [[H1 H2]|[H1 H2]]].
      + exists (ring + i - r_end s). unfold AsyncReaderModel.ring in *. split; [lia|]. split; [|lia].
        rewrite <- Nat.add_mod_idemp_l by done. rewrite <- He.
        replace (r_end s + (5 * B + i - r_end s)) with (i + 1 * (5 * B)) by lia. by rewrite Nat.mod_add.
      + exists (i - ring - r_end s). unfold AsyncReaderModel.ring in *. split; [lia|]. split; [|lia].
        rewrite <- Nat.add_mod_idemp_l by done. rewrite <- He.
        replace i with (r_end s + (i - 5 * B - r_end s) + 1 * (5 * B)) at 1 by lia. by rewrite Nat.mod_add.
  Qed.

  (** The worker does not write to it. *)
  Lemma block_not_written buf evs1 p bs evs2 s i :
    length buf = 6 * B -> run B (reader_init buf) (evs1 ++ Block p bs :: evs2) s -> Forall (fun ev => is_block ev = false) evs2 ->
    p <= i < p + length bs -> ~ worker_writes B s i.
  Proof using HB.
    intros Hb Hr Hnb Hpi Hw. destruct (run_last _ _ _ _ _ _ Hb Hr Hnb) as (D & T & l & Hi & -> & -> & Hbs).
    destruct (writes_pos _ _ _ _ _ _ Hi Hw) as (k & Hk & Hmod & Hroom).
    assert (ring <> 0) as HR by (unfold AsyncReaderModel.ring; lia).
    pose proof (i_T _ _ _ _ _ _ Hi) as HT. pose proof (i_l _ _ _ _ _ _ Hi) as Hl.
    apply (write_safe B HB D T (length bs) (T - length bs + (i - (T - length bs) mod ring)) k); try lia.
    rewrite <- Hmod. rewrite <- Nat.add_mod_idemp_l by done. f_equal. lia.
  Qed.

  (** Steps change what [worker_writes] says at most. *)
  Lemma step_writes evs s D T l ev s' i :
    inv evs s D T l -> step B s ev s' -> ~ worker_writes B s i -> r_buf s' !! i = r_buf s !! i.
  Proof using HB.
    intros Hi Hs Hw. pose proof (i_end _ _ _ _ _ _ Hi) as He. pose proof (i_len _ _ _ _ _ _ Hi) as Hlen.
    pose proof (i_pend _ _ _ _ _ _ Hi) as [Hp _]. unfold worker_writes in Hw.
    destruct Hs; subst; cbn [r_buf r_end r_w r_term pending] in *; try done.
    - destruct H as [_ H]. apply H. done.
    - destruct (overwrite_spec _ _ _ _ H1) as (_ & _ & H2). apply H2. lia.
    - assert (length D mod ring < ring) as Hub by (apply Nat.mod_upper_bound; unfold AsyncReaderModel.ring; lia).
      destruct (store_spec B HB buf (length D mod ring) (length bs)) as (b1 & Hst & Hl1 & Hlow & Hhigh); [done|done|destruct bs; [done|cbn; lia]|done|].
      subst e. rewrite H0 in Hst. injection Hst as <- _.
      destruct (decide (i < ring)) as [Hir|Hir].
      + rewrite Hlow by done. rewrite bool_decide_eq_false_2; [done|]. intros [Ha Hb]. apply Hw. split; [done|].
        left. unfold AsyncReaderModel.ring in *. lia.
      + destruct (decide (i < 6 * B)) as [Hi6|Hi6].
        * replace i with (ring + (i - ring)) by lia. rewrite Hhigh by (unfold AsyncReaderModel.ring in *; lia).
          rewrite bool_decide_eq_false_2; [done|]. intros [Ha Hb]. apply Hw. split; [done|]. right.
          unfold AsyncReaderModel.ring in *. lia.
        * rewrite !lookup_ge_None_2 by lia. done.
  Qed.

  (** * Progress *)
  Lemma owns_cases lk : (lk = None /\ owns Main lk = false /\ owns Worker lk = false) \/ (lk = Some Main /\ owns Main lk = true) \/ (lk = Some Worker /\ owns Worker lk = true).
  Proof using. destruct lk as [[]|]; cbn; tauto. Qed.

  Definition enabled (s : rd) : Prop := exists ev s', step B s ev s' /\ outside ev = false /\ ev <> SrcThrow.

  Lemma progress evs s D T l :
    inv evs s D T l -> (in_read s /\ SrcThrow ∉ evs) \/ in_dtor s -> enabled s.
  Proof using HB.
    intros Hi Hbusy. pose proof (inv_in_buffer B HB _ _ _ _ _ Hi) as Hin. unfold enabled.
    assert (ring <> 0) as HR by (unfold AsyncReaderModel.ring; lia).
    destruct s as [buf b e eof tm ex lk m w]. destruct (owns_cases lk) as [(-> & Hlm & Hlw)|[[-> Hlk]|[-> Hlk]]].
    - assert (w = WStart \/ w = WWake \/ w = WRead \/ (exists bs, w = WGot bs) \/ w = WThrow \/ w = WThrown -> exists ev s', step B (mkRd buf b e eof tm ex None m w) ev s' /\ outside ev = false /\ ev <> SrcThrow) as Hw.
      { intros [->|[->|[->|[[bs ->]|[->| ->]]]]].
        - exists Tau. eexists. split; [apply st_wstart|done].
        - exists Tau. eexists. split; [apply st_wrelock|done].
        - exists SrcEnd. eexists. split; [apply st_src_end|done].
        - exists Tau. eexists. split; [apply st_wlock|done].
        - exists Tau. eexists. split; [apply st_wthrow|done].
        - exists Tau. eexists. split; [apply st_wthrown|done]. }
      pose proof (i_lock_m _ _ _ _ _ _ Hi) as H1. pose proof (i_lock_w _ _ _ _ _ _ Hi) as H2. cbn in H1, H2.
      destruct m as [| |sz|sz|sz|sz|sz| | | |]; try discriminate H1.
      + destruct Hbusy as [[[] _]|[]].
      + exists Tau. eexists. split; [apply st_lock|done].
      + destruct w as [| | | | |bs|bs| | |]; try discriminate H2; try (apply Hw; eauto 10; fail).
        * exfalso. pose proof (i_wsleep _ _ _ _ _ _ Hi eq_refl). pose proof (i_msleep' _ _ _ _ _ _ Hi eq_refl).
          pose proof (i_size _ _ _ _ _ _ Hi) as Hs. cbn [m_size r_m] in *. lia.
        * exfalso. pose proof (i_msleep _ _ _ _ _ _ Hi eq_refl) as He. cbn in He. subst eof.
          pose proof (i_term _ _ _ _ _ _ Hi) as Ht. cbn in Ht.
          pose proof (i_exc _ _ _ _ _ _ Hi) as Hx. cbn in Hx.
          destruct (i_done _ _ _ _ _ _ Hi eq_refl) as [He|[He|He]]; cbn in He; [done|specialize (Ht He); done|].
          destruct Hbusy as [[_ Hn]|[]]. by apply Hn, Hx.
      + exists Tau. eexists. split; [apply st_relock|done].
      + exists Tau. eexists. split; [apply st_term|done].
      + exists Tau. eexists. split; [apply st_notify|done].
      + destruct w as [| | | | |bs|bs| | |]; try discriminate H2; try (apply Hw; eauto 10; fail).
        * exfalso. by apply (i_wsleep' _ _ _ _ _ _ Hi).
        * exists Destroyed. eexists. split; [apply st_join|done].
      + destruct Hbusy as [[[] _]|[]].
    - pose proof (i_lock_m _ _ _ _ _ _ Hi) as H1. cbn in H1.
      destruct m as [| |sz|sz|sz|sz|sz| | | |]; try discriminate H1.
      + destruct Hbusy as [[[] _]|[]].
      + destruct ex; [exists (Throw sz); eexists; split; [apply st_throw|done]|].
        destruct (decide (sz <= in_buffer (mkRd buf b e eof tm false (Some Main) (MCheck sz) w))) as [Hle|Hgt].
        * pose proof (i_begin _ _ _ _ _ _ Hi) as Hb. pose proof (i_len _ _ _ _ _ _ Hi) as Hlen.
          pose proof (Nat.mod_upper_bound T ring HR) as Hub. pose proof (i_size _ _ _ _ _ _ Hi) as Hsz.
          cbn [r_begin r_buf r_m m_size] in Hb, Hlen, Hsz. destruct (slice_ok buf b sz) as [bs Hbs].
          { unfold AsyncReaderModel.ring in *. lia. }
          exists (Block b bs). eexists. split; [by eapply st_block|done].
        * destruct eof.
          -- exists (Null sz). eexists. split; [eapply st_null; [reflexivity|lia]|done].
          -- exists Tau. eexists. split; [eapply st_wait; [reflexivity|done|lia|done]|done].
      + exists Tau. eexists. split; [apply st_sleep|done].
    - pose proof (i_lock_w _ _ _ _ _ _ Hi) as H1. cbn in H1. destruct w as [| | | | |bs|bs| | |]; try discriminate H1.
      + destruct tm; [exists Tau; eexists; split; [apply st_wterm|done]|].
        destruct (decide (2 * B <= ring - in_buffer (mkRd buf b e eof false ex (Some Worker) m WCheck))) as [Hle|Hgt].
        * exists Tau. eexists. split; [by eapply st_wunlock|done].
        * exists Tau. eexists. split; [eapply st_wwait; [reflexivity|lia]|done].
      + destruct tm; [exists Tau; eexists; split; [apply st_wterm2|done]|].
        destruct bs as [|x bs']; [exists Tau; eexists; split; [apply st_weof|done]|].
        pose proof (i_end _ _ _ _ _ _ Hi) as He. pose proof (i_len _ _ _ _ _ _ Hi) as Hlen.
        pose proof (Nat.mod_upper_bound (length D) ring HR) as Hub. pose proof (i_pend _ _ _ _ _ _ Hi) as [Hp _].
        cbn [r_end r_buf r_w pending] in He, Hlen, Hp.
        destruct (store_spec B HB buf e (length (x :: bs'))) as (b1 & Hst & _); [done|lia|cbn; lia|done|].
        exists Tau. eexists. split; [by eapply st_wstore|done].
  Qed.

  (** * How long a call can take *)
  Definition w_rank (w : wpc) : nat :=
    match w with WStart | WWake => 6 | WCheck => 5 | WRead => 4 | WGot _ => 3 | WStore _ => 2 | WThrow => 2 | WThrown => 1 | WSleep => 0 | WDone => 0 end.
  Definition m_rank (m : mpc) : nat :=
    match m with MLock _ | MWake _ => 3 | MCheck _ => 2 | MBlock _ => 1 | MSleep _ => 0 | MDtor => 9 | MNotify => 8 | MJoin => 1 | _ => 0 end.
  Definition to_come (s : rd) : nat := match r_w s with WDone => 0 | _ => 10 * (ring + 1 - in_buffer s) end.
  Definition rank (s : rd) : nat := to_come s + w_rank (r_w s) + m_rank (r_m s).

  Lemma rank_bound s : rank s <= 50 * B + 25.
  Proof using HB.
    unfold rank. assert (to_come s <= 50 * B + 10) by (unfold to_come, AsyncReaderModel.ring; destruct (r_w s); lia).
    assert (w_rank (r_w s) <= 6) by (destruct (r_w s); cbn; lia). assert (m_rank (r_m s) <= 9) by (destruct (r_m s); cbn; lia). lia.
  Qed.
  Lemma wake_m_rank m : m_rank (wake_m m) <= m_rank m + 3. Proof using. clear. destruct m; cbn; lia. Qed.
  Lemma wake_w_rank w : w_rank (wake_w w) <= w_rank w + 6. Proof using. clear. destruct w; cbn; lia. Qed.

  Lemma step_rank evs s D T l ev s' :
    inv evs s D T l -> step B s ev s' -> busy s -> busy s' ->
    if outside ev then rank s' <= rank s + 6 else rank s' < rank s.
  Proof using HB.
    intros Hi Hs Hb Hb'. pose proof (inv_in_buffer B HB _ _ _ _ _ Hi) as Hin.
    pose proof (i_T _ _ _ _ _ _ Hi) as HT.
    assert (in_buffer s <= 4 * B) as Hin4 by lia.
    destruct (step_inv B HB _ _ _ _ _ _ _ Hi Hs) as (D' & T' & l' & Htr & Hi').
    pose proof (inv_in_buffer B HB _ _ _ _ _ Hi') as Hin'.
    unfold rank, to_come. unfold busy, in_read, in_dtor in Hb, Hb'.
    destruct Hs; subst; cbn [r_w r_m outside w_rank m_rank] in *; try tauto.
    all: try (unfold AsyncReaderModel.in_buffer in *; cbn [r_begin r_end] in *; unfold AsyncReaderModel.ring in *; lia).
    all: try (unfold AsyncReaderModel.in_buffer in *; cbn [r_begin r_end] in *; unfold AsyncReaderModel.ring in *; destruct w; cbn [w_rank wake_w]; lia).
    - pose proof (wake_m_rank m). unfold AsyncReaderModel.ring in *. lia.
    - pose proof (wake_m_rank m).
      pose proof (i_pub _ _ _ _ _ _ Hi eq_refl) as Hp. pose proof (i_pub _ _ _ _ _ _ Hi' eq_refl) as Hp'.
      cbn [r_w pending] in Hp, Hp'. rewrite app_nil_r, del_snoc in Hp' by done.
      assert (length D' = length D + length bs) as Hlen by (rewrite Hp', <- Hp; apply app_length).
      destruct Htr as (_ & -> & _). pose proof (i_T _ _ _ _ _ _ Hi') as HT'.
      assert (0 < length bs) by (destruct bs; [done|cbn; lia]).
      rewrite Hin, Hin'. unfold AsyncReaderModel.ring in *. lia.
    - pose proof (wake_m_rank m). unfold AsyncReaderModel.ring in *. lia.
  Qed.

  Lemma run_in_rank evs0 s evs s' D T l :
    inv evs0 s D T l -> run_in B busy s evs s' ->
    exists D' T' l', inv (evs0 ++ evs) s' D' T' l' /\ busy s' /\ rank s' + length (filter (fun ev => outside ev = false) evs) <= rank s + 6 * length (filter (fun ev => outside ev = true) evs).
  Proof using HB.
    intros Hi Hr. induction Hr as [s Hb|s evs s' ev s'' Hr IH Hs Hb].
    - exists D, T, l. rewrite app_nil_r. split; [done|]. split; [done|]. cbn. lia.
    - destruct (IH Hi) as (D1 & T1 & l1 & Hi1 & Hb1 & Hle).
      destruct (step_inv B HB _ _ _ _ _ _ _ Hi1 Hs) as (D2 & T2 & l2 & _ & Hi2).
      pose proof (step_rank _ _ _ _ _ _ _ Hi1 Hs Hb1 Hb) as Hrk.
      exists D2, T2, l2. rewrite app_assoc. split; [done|]. split; [done|].
      rewrite !filter_app, !app_length. destruct (outside ev) eqn:E.
      + rewrite (filter_cons_False _ ev) by congruence. rewrite (filter_cons_True _ ev) by done. cbn. lia.
      + rewrite (filter_cons_True _ ev) by congruence. rewrite (filter_cons_False _ ev) by congruence. cbn. lia.
  Qed.
End Reader.
