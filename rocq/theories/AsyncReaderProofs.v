(** Invariants of the asynchronous reader. *)
From Verif Require Import Base AsyncReaderModel AsyncReaderSpec.

Ltac Zify.zify_post_hook ::= idtac.

(** * Positions in the ring *)
Lemma mod_add_small M x k : 0 < M -> k <= M -> (x + k) mod M = if M <=? x mod M + k then x mod M + k - M else x mod M + k.
Proof.
  intros HM Hk. pose proof (Nat.mod_upper_bound x M ltac:(lia)) as Hx.
  pose proof (Nat.div_mod x M ltac:(lia)) as Hd.
  destruct (M <=? x mod M + k) eqn:E.
  - apply Nat.leb_le in E. symmetry. apply (Nat.mod_unique _ _ (x / M + 1)); nia.
  - apply Nat.leb_gt in E. symmetry. apply (Nat.mod_unique _ _ (x / M)); nia.
Qed.
Lemma mod_near M x y : 0 < M -> x <= y -> y < x + M -> x mod M = y mod M -> x = y.
Proof.
  intros HM Hxy Hy He.
  pose proof (Nat.div_mod x M ltac:(lia)) as Hx. pose proof (Nat.div_mod y M ltac:(lia)) as Hd.
  assert (x / M = y / M) by nia. nia.
Qed.

(** * Memory *)
Lemma slice_lookup buf p len bs i :
  slice buf p len = Some bs -> i < len -> bs !! i = buf !! (p + i).
Proof.
  unfold slice. destruct (p + len <=? length buf); [|done]. intros [= <-] Hi.
  rewrite lookup_take by lia. by rewrite lookup_drop.
Qed.
Lemma slice_length buf p len bs : slice buf p len = Some bs -> length bs = len /\ p + len <= length buf.
Proof.
  unfold slice. destruct (p + len <=? length buf) eqn:E; [|done]. intros [= <-]. apply Nat.leb_le in E.
  rewrite take_length, drop_length. lia.
Qed.
Lemma slice_ok buf p len : p + len <= length buf -> exists bs, slice buf p len = Some bs.
Proof. intros H. unfold slice. apply Nat.leb_le in H. rewrite H. eauto. Qed.
Lemma overwrite_ok buf p bs : p + length bs <= length buf -> exists buf', overwrite buf p bs = Some buf'.
Proof. intros H. unfold overwrite. apply Nat.leb_le in H. rewrite H. eauto. Qed.
Lemma overwrite_spec buf p bs buf' :
  overwrite buf p bs = Some buf' ->
  length buf' = length buf /\
  (forall i, i < length bs -> buf' !! (p + i) = bs !! i) /\
  (forall i, ~ p <= i < p + length bs -> buf' !! i = buf !! i).
Proof.
  unfold overwrite. destruct (p + length bs <=? length buf) eqn:E; [|done]. intros [= <-]. apply Nat.leb_le in E.
  split; [|split].
  - rewrite !app_length, take_length, drop_length. lia.
  - intros i Hi. rewrite lookup_app_r; rewrite take_length; [|lia].
    rewrite lookup_app_l by lia. f_equal. lia.
  - intros i Hi. destruct (decide (i < p)).
    + rewrite lookup_app_l by (rewrite take_length; lia). rewrite lookup_take by lia. done.
    + rewrite lookup_app_r; rewrite take_length; [|lia]. rewrite lookup_app_r by lia.
      rewrite lookup_drop. f_equal. lia.
Qed.
Lemma memcpy_spec buf dst src len :
  src + len <= length buf -> dst + len <= length buf ->
  exists buf', memcpy buf dst src len = Some buf' /\ length buf' = length buf /\
    (forall i, i < len -> buf' !! (dst + i) = buf !! (src + i)) /\
    (forall i, ~ dst <= i < dst + len -> buf' !! i = buf !! i).
Proof.
  intros Hs Hd. destruct (slice_ok _ _ _ Hs) as [bs Hbs]. destruct (slice_length _ _ _ _ Hbs) as [Hl _].
  destruct (overwrite_ok buf dst bs ltac:(lia)) as [buf' Hb].
  destruct (overwrite_spec _ _ _ _ Hb) as (H1 & H2 & H3).
  exists buf'. unfold memcpy. rewrite Hbs, bind_S. split; [done|]. split; [done|]. split.
  - intros i Hi. rewrite H2 by lia. by apply (slice_lookup buf src len).
  - intros i Hi. apply H3. lia.
Qed.

Section Reader.
  Context (B : nat) (HB : 0 < B).
  Notation ring := (ring B).
  Notation in_buffer := (in_buffer B).

  (** :118-129 *)
  Lemma store_spec buf e k :
    length buf = 6 * B -> e < ring -> 0 < k -> k <= B ->
    exists buf', store B buf e k = Some (buf', if ring <=? e + k then e + k - ring else e + k) /\
      length buf' = length buf /\
      (forall i, i < ring -> buf' !! i = if bool_decide (ring <= e + k /\ i < e + k - ring) then buf !! (ring + i) else buf !! i) /\
      (forall i, i < B -> buf' !! (ring + i) = if bool_decide (e <= i /\ i < e + k) then buf !! i else buf !! (ring + i)).
  Proof using HB.
    intros Hlen He Hk HkB. unfold store, AsyncReaderModel.ring in *. cbv zeta.
    destruct (5 * B <=? e + k) eqn:E.
    - apply Nat.leb_le in E.
      destruct (memcpy_spec buf 0 (5 * B) (e + k - 5 * B)) as (b1 & Hm & Hl & H1 & H2); [lia..|].
      rewrite Hm, !bind_S. cbv beta iota. replace (e <? B) with false by (symmetry; apply Nat.ltb_ge; lia).
      rewrite bind_S. exists b1. split; [done|]. split; [done|]. split.
      + intros i Hi. case_bool_decide as Hc.
        * rewrite <- (H1 i) by lia. f_equal.
        * apply H2. lia.
      + intros i Hi. rewrite bool_decide_eq_false_2 by lia. apply H2. lia.
    - apply Nat.leb_gt in E. rewrite bind_S. cbv beta iota.
      destruct (e <? B) eqn:E2.
      + apply Nat.ltb_lt in E2.
        assert (exists b1, (if e + k <? B then memcpy buf (5 * B + e) e k else memcpy buf (5 * B + e) e (B - e)) = Some b1 /\
          length b1 = length buf /\
          (forall i, i < B -> e <= i -> i < e + k -> b1 !! (5 * B + i) = buf !! i) /\
          (forall i, ~ (5 * B + e <= i < 5 * B + e + k /\ i < 6 * B) -> b1 !! i = buf !! i)) as (b1 & Hm & Hl & H1 & H2).
        { destruct (e + k <? B) eqn:E3.
          - apply Nat.ltb_lt in E3.
            destruct (memcpy_spec buf (5 * B + e) e k) as (b1 & Hm & Hl & H1 & H2); [lia..|].
            exists b1. split; [done|]. split; [done|]. split.
            + intros i Hi Hei Hik. replace (5 * B + i) with (5 * B + e + (i - e)) by lia. rewrite H1 by lia. f_equal. lia.
            + intros i Hi. apply H2. lia.
          - apply Nat.ltb_ge in E3.
            destruct (memcpy_spec buf (5 * B + e) e (B - e)) as (b1 & Hm & Hl & H1 & H2); [lia..|].
            exists b1. split; [done|]. split; [done|]. split.
            + intros i Hi Hei Hik. replace (5 * B + i) with (5 * B + e + (i - e)) by lia. rewrite H1 by lia. f_equal. lia.
            + intros i Hi. apply H2. lia. }
        rewrite Hm, bind_S. exists b1. split; [done|]. split; [done|]. split.
        * intros i Hi. rewrite bool_decide_eq_false_2 by lia. apply H2. lia.
        * intros i Hi. case_bool_decide as Hc; [apply H1; lia|apply H2; lia].
      + apply Nat.ltb_ge in E2. rewrite bind_S. exists buf. split; [done|]. split; [done|]. split.
        * intros i Hi. rewrite bool_decide_eq_false_2 by lia. done.
        * intros i Hi. rewrite bool_decide_eq_false_2 by lia. done.
  Qed.

  (** * The invariant *)
  (** Bytes that byte_source has returned and that are not yet in the ring. *)
  Definition pending (w : wpc) : list N := match w with WGot bs | WStore bs => bs | _ => [] end.
  Definition m_holds (m : mpc) : bool := match m with MCtor | MCheck _ | MBlock _ => true | _ => false end.
  Definition w_holds (w : wpc) : bool := match w with WCheck | WStore _ => true | _ => false end.
  Definition reading (w : wpc) : bool := match w with WRead | WGot _ | WStore _ => true | _ => false end.
  Definition leaving (m : mpc) : bool := match m with MNotify | MJoin | MDead => true | _ => false end.
  Definition thrown (w : wpc) : bool := match w with WThrow | WThrown => true | _ => false end.
  Definition joining (m : mpc) : bool := match m with MJoin | MDead => true | _ => false end.
  Definition owns (t : thread) (lk : option thread) : bool := match t, lk with Main, Some Main | Worker, Some Worker => true | _, _ => false end.
  Definition waiting (m : mpc) : bool := match m with MBlock _ | MSleep _ => true | _ => false end.
  Definition m_size (m : mpc) : nat := match m with MLock sz | MCheck sz | MBlock sz | MSleep sz | MWake sz => sz | _ => 0 end.

  (** [D] is what is or was in the ring, [T] how much of it has been returned, [l] the size of the last block. *)
  Record inv (evs : list ev) (s : rd) (D : list N) (T l : nat) : Prop := {
    i_len : length (r_buf s) = 6 * B;
    i_begin : r_begin s = T mod ring;
    i_end : r_end s = length D mod ring;
    i_T : T <= length D <= T + 4 * B;
    i_room : reading (r_w s) = true -> length D <= T + 3 * B;
    i_l : l <= T /\ l <= B;
    i_data : forall j x, T <= j + l -> D !! j = Some x ->
      r_buf s !! (j mod ring) = Some x /\ (j mod ring < B -> r_buf s !! (ring + j mod ring) = Some x);
    i_pend : length (pending (r_w s)) <= B /\
      forall i x, pending (r_w s) !! i = Some x -> r_buf s !! (r_end s + i) = Some x;
    i_lock_m : m_holds (r_m s) = owns Main (r_lock s);
    i_lock_w : w_holds (r_w s) = owns Worker (r_lock s);
    i_wsleep : r_w s = WSleep -> T + 3 * B < length D;
    i_wsleep' : joining (r_m s) = true -> r_w s <> WSleep;
    i_msleep : waiting (r_m s) = true -> r_eof s = false;
    i_msleep' : waiting (r_m s) = true -> length D < T + m_size (r_m s);
    i_size : m_size (r_m s) <= B;
    i_eof : r_eof s = true -> r_exc s = false -> SrcEnd ∈ evs;
    i_eof' : r_eof s = true -> r_exc s = false -> r_w s = WDone;
    i_done : r_w s = WDone -> r_eof s = true \/ r_term s = true \/ r_exc s = true;
    i_exc : r_exc s = true -> SrcThrow ∈ evs;
    i_thrown : thrown (r_w s) = true -> SrcThrow ∈ evs;
    i_thrown' : r_w s = WThrown -> r_exc s = true;
    i_got : r_w s = WGot [] \/ r_w s = WStore [] -> SrcEnd ∈ evs;
    i_term : r_term s = true -> leaving (r_m s) = true;
    i_term' : leaving (r_m s) = true -> r_term s = true;
    i_pub : r_term s = false -> D ++ pending (r_w s) = delivered evs;
    i_pre : D `prefix_of` delivered evs;
    i_ret : returned evs = take T D }.

  Lemma inv_in_buffer evs s D T l : inv evs s D T l -> in_buffer s = length D - T.
  Proof using HB.
    intros H. unfold AsyncReaderModel.in_buffer. rewrite (i_begin _ _ _ _ _ H), (i_end _ _ _ _ _ H).
    pose proof (i_T _ _ _ _ _ H) as HT.
    assert (0 < ring) by (unfold AsyncReaderModel.ring; lia).
    pose proof (mod_add_small ring T (length D - T) ltac:(lia) ltac:(unfold AsyncReaderModel.ring; lia)) as Hd.
    replace (T + (length D - T)) with (length D) in Hd by lia. rewrite Hd.
    pose proof (Nat.mod_upper_bound T ring ltac:(lia)) as Hub.
    destruct (ring <=? T mod ring + (length D - T)) eqn:E.
    - apply Nat.leb_le in E. unfold AsyncReaderModel.ring in *.
      replace (_ <=? _) with false; [lia|]. symmetry. apply Nat.leb_gt. lia.
    - replace (_ <=? _) with true; [lia|]. symmetry. apply Nat.leb_le. lia.
  Qed.

  Lemma delivered_snoc evs ev : delivered (evs ++ [ev]) = delivered evs ++ delivered_by ev.
  Proof using. unfold delivered. rewrite map_app, concat_app. cbn. by rewrite app_nil_r. Qed.
  Lemma returned_snoc evs ev : returned (evs ++ [ev]) = returned evs ++ returned_by ev.
  Proof using. unfold returned. rewrite map_app, concat_app. cbn. by rewrite app_nil_r. Qed.

  Lemma inv_init buf : length buf = 6 * B -> inv [] (reader_init buf) [] 0 0.
  Proof using HB.
    intros Hb. split; cbn; try done; try lia.
    all: try (rewrite Nat.mod_0_l; unfold AsyncReaderModel.ring; lia).
    - split; [lia|]. intros i x Hx. rewrite lookup_nil in Hx. done.
    - intros [?|?]; done.
  Qed.

  Lemma wake_m_holds m : m_holds (wake_m m) = m_holds m. Proof using. by destruct m. Qed.
  Lemma wake_w_holds w : w_holds (wake_w w) = w_holds w. Proof using. by destruct w. Qed.
  Lemma wake_w_reading w : reading (wake_w w) = reading w. Proof using. by destruct w. Qed.
  Lemma wake_w_pending w : pending (wake_w w) = pending w. Proof using. by destruct w. Qed.
  Lemma wake_w_thrown w : thrown (wake_w w) = thrown w. Proof using. by destruct w. Qed.
  Lemma wake_m_leaving m : leaving (wake_m m) = leaving m. Proof using. by destruct m. Qed.
  Lemma wake_m_joining m : joining (wake_m m) = joining m. Proof using. by destruct m. Qed.
  Lemma wake_w_sleep w : wake_w w <> WSleep. Proof using. by destruct w. Qed.
  Lemma wake_w_eq w w' : wake_w w = w' -> w' <> WWake -> w = w'. Proof using. by destruct w; cbn; intros <-. Qed.
  Lemma wake_m_waiting m : waiting (wake_m m) = true -> waiting m = true /\ m_holds m = true. Proof using. by destruct m. Qed.
  Lemma wake_m_size m : m_size (wake_m m) = m_size m. Proof using. by destruct m. Qed.

  (** A write to the [B] bytes behind the data does not change what is in the ring. *)
  Lemma write_safe (D : list N) T l j i :
    T <= length D -> length D <= T + 3 * B -> l <= B -> T <= j + l -> j < length D -> i < B ->
    j mod ring <> (length D + i) mod ring.
  Proof using HB.
    intros HT Hroom Hl Hj HjD Hi He. unfold AsyncReaderModel.ring in *.
    pose proof (mod_near (5 * B) j (length D + i) ltac:(lia) ltac:(lia) ltac:(lia) He). lia.
  Qed.
  Lemma scribbled_data (buf buf' D : list N) T l :
    T <= length D -> length D <= T + 3 * B -> l <= B ->
    (forall i, ~ length D mod ring <= i < length D mod ring + B -> buf' !! i = buf !! i) ->
    (forall j x, T <= j + l -> D !! j = Some x ->
      buf !! (j mod ring) = Some x /\ (j mod ring < B -> buf !! (ring + j mod ring) = Some x)) ->
    (forall j x, T <= j + l -> D !! j = Some x ->
      buf' !! (j mod ring) = Some x /\ (j mod ring < B -> buf' !! (ring + j mod ring) = Some x)).
  Proof using HB.
    intros HT Hroom Hl Hsame Hdata j x Hj HDj. destruct (Hdata j x Hj HDj) as [H1 H2].
    pose proof (lookup_lt_Some _ _ _ HDj) as HjD.
    assert (0 < ring) as HR by (unfold AsyncReaderModel.ring; lia).
    pose proof (Nat.mod_upper_bound j ring ltac:(lia)) as Hub.
    pose proof (Nat.mod_upper_bound (length D) ring ltac:(lia)) as Hub2.
    split.
    - rewrite Hsame; [done|]. intros Hr.
      pose proof (write_safe D T l j (j mod ring - length D mod ring) HT Hroom Hl Hj HjD ltac:(lia)) as Hne.
      rewrite mod_add_small in Hne by (unfold AsyncReaderModel.ring; lia). revert Hne.
      replace (ring <=? _) with false; [lia|]. symmetry. apply Nat.leb_gt. lia.
    - intros HjB. rewrite Hsame; [by apply H2|]. intros Hr.
      pose proof (write_safe D T l j (ring + j mod ring - length D mod ring) HT Hroom Hl Hj HjD ltac:(lia)) as Hne.
      rewrite mod_add_small in Hne by (unfold AsyncReaderModel.ring in *; lia). revert Hne.
      replace (ring <=? _) with true; [lia|]. symmetry. apply Nat.leb_le. lia.
  Qed.

  (** After byte_source has returned and the blocks at both ends have been copied, the new bytes are in the ring. *)
  Lemma stored_data buf buf' D T l bs e' :
    length buf = 6 * B -> T <= length D -> length D <= T + 3 * B -> l <= B -> bs <> [] -> length bs <= B ->
    store B buf (length D mod ring) (length bs) = Some (buf', e') ->
    (forall j x, T <= j + l -> D !! j = Some x ->
      buf !! (j mod ring) = Some x /\ (j mod ring < B -> buf !! (ring + j mod ring) = Some x)) ->
    (forall i x, bs !! i = Some x -> buf !! (length D mod ring + i) = Some x) ->
    length buf' = 6 * B /\ e' = length (D ++ bs) mod ring /\
    (forall j x, T <= j + l -> (D ++ bs) !! j = Some x ->
      buf' !! (j mod ring) = Some x /\ (j mod ring < B -> buf' !! (ring + j mod ring) = Some x)).
  Proof using HB.
    intros Hlen HT Hroom Hl Hne Hbs Hst Hdata Hpend.
    assert (0 < ring) as HR by (unfold AsyncReaderModel.ring; lia).
    pose proof (Nat.mod_upper_bound (length D) ring ltac:(lia)) as Hub2.
    assert (0 < length bs) as Hpos by (destruct bs; [done|cbn; lia]).
    destruct (store_spec buf (length D mod ring) (length bs) Hlen Hub2 Hpos Hbs) as (b1 & Hst1 & Hl1 & Hlow & Hhigh).
    rewrite Hst in Hst1. injection Hst1 as <- ->.
    split; [lia|]. split.
    { rewrite app_length. rewrite mod_add_small by (unfold AsyncReaderModel.ring; lia). done. }
    intros j x Hj HDj.
    pose proof (Nat.mod_upper_bound j ring ltac:(lia)) as Hub.
    destruct (decide (j < length D)) as [Hlt|Hge].
    - rewrite lookup_app_l in HDj by done. destruct (Hdata j x Hj HDj) as [H1 H2].
      split.
      + rewrite Hlow by done. rewrite bool_decide_eq_false_2; [done|]. intros [Ha Hb].
        pose proof (write_safe D T l j (ring + j mod ring - length D mod ring) HT Hroom Hl Hj Hlt ltac:(lia)) as Hn.
        rewrite mod_add_small in Hn by (unfold AsyncReaderModel.ring in *; lia). revert Hn.
        replace (ring <=? _) with true; [lia|]. symmetry. apply Nat.leb_le. lia.
      + intros HjB. rewrite Hhigh by done. case_bool_decide as Hc; [done|by apply H2].
    - rewrite lookup_app_r in HDj by lia. pose proof (lookup_lt_Some _ _ _ HDj) as Hjl.
      pose proof (Hpend _ _ HDj) as Hx.
      assert (j mod ring = if ring <=? length D mod ring + (j - length D) then length D mod ring + (j - length D) - ring
        else length D mod ring + (j - length D)) as Hm.
      { rewrite <- mod_add_small by (unfold AsyncReaderModel.ring; lia). f_equal. lia. }
      destruct (ring <=? length D mod ring + (j - length D)) eqn:E.
      + apply Nat.leb_le in E. split.
        * rewrite Hlow by done. rewrite bool_decide_eq_true_2 by lia. rewrite <- Hx. f_equal. lia.
        * intros HjB. rewrite Hhigh by done. unfold AsyncReaderModel.ring in *. rewrite bool_decide_eq_false_2 by lia. rewrite <- Hx. f_equal. lia.
      + apply Nat.leb_gt in E. rewrite <- Hm in Hx. split.
        * rewrite Hlow by done. unfold AsyncReaderModel.ring in *. rewrite bool_decide_eq_false_2 by lia. done.
        * intros HjB. rewrite Hhigh by done. rewrite bool_decide_eq_true_2 by lia. done.
  Qed.

  (** What read returns is the next part of the stream. *)
  Lemma returned_block (buf D bs : list N) T l sz :
    T + sz <= length D -> sz <= B -> slice buf (T mod ring) sz = Some bs ->
    (forall j x, T <= j + l -> D !! j = Some x ->
      buf !! (j mod ring) = Some x /\ (j mod ring < B -> buf !! (ring + j mod ring) = Some x)) ->
    take T D ++ bs = take (T + sz) D.
  Proof using HB.
    intros Hsz HszB Hs Hd. destruct (slice_length _ _ _ _ Hs) as [Hl _].
    assert (0 < ring) as HR by (unfold AsyncReaderModel.ring; lia).
    pose proof (Nat.mod_upper_bound T ring ltac:(lia)) as Hub.
    apply list_eq. intros i. destruct (decide (i < T)) as [Hi|Hi].
    - rewrite lookup_app_l by (rewrite take_length; lia). rewrite !lookup_take by lia. done.
    - rewrite lookup_app_r by (rewrite take_length; lia). rewrite take_length, Nat.min_l by lia.
      destruct (decide (i < T + sz)) as [Hi2|Hi2].
      + rewrite lookup_take by lia. rewrite (slice_lookup buf (T mod ring) sz) by (done || lia).
        destruct (lookup_lt_is_Some_2 D i ltac:(lia)) as [x Hx]. rewrite Hx.
        destruct (Hd i x ltac:(lia) Hx) as [H1 H2].
        assert (i mod ring = if ring <=? T mod ring + (i - T) then T mod ring + (i - T) - ring else T mod ring + (i - T)) as Hm.
        { rewrite <- mod_add_small by (unfold AsyncReaderModel.ring; lia). f_equal. lia. }
        destruct (ring <=? T mod ring + (i - T)) eqn:E.
        * apply Nat.leb_le in E. rewrite <- H2 by lia. f_equal. lia.
        * rewrite <- H1. f_equal. lia.
      + rewrite lookup_take_ge by lia. apply lookup_ge_None. lia.
  Qed.

  Lemma in_snoc (x : ev) evs y : x ∈ evs -> x ∈ evs ++ [y].
  Proof using. intros H. apply elem_of_app. by left. Qed.
  Lemma in_last (x : ev) evs : x ∈ evs ++ [x].
  Proof using. apply elem_of_app. right. by apply elem_of_list_singleton. Qed.
  Lemma del_snoc evs ev : delivered_by ev = [] -> delivered (evs ++ [ev]) = delivered evs.
  Proof using. intros H. rewrite delivered_snoc, H. apply app_nil_r. Qed.
  Lemma ret_snoc evs ev : returned_by ev = [] -> returned (evs ++ [ev]) = returned evs.
  Proof using. intros H. rewrite returned_snoc, H. apply app_nil_r. Qed.

  Ltac wakes := rewrite ?wake_m_holds, ?wake_w_holds, ?wake_w_reading, ?wake_w_pending, ?wake_w_thrown, ?wake_m_leaving, ?wake_m_size, ?wake_m_joining.
  Ltac proj := cbn [r_buf r_begin r_end r_eof r_term r_exc r_lock r_m r_w pending m_holds w_holds reading leaving joining thrown waiting m_size] in *.
  (** Goals that a field of the invariant before the step settles as it is. *)
  Ltac easy_field :=
    solve [ assumption | exact I | lia | discriminate
          | intros; discriminate
          | intros; apply in_snoc; auto
          | auto
          | intros [?|?]; discriminate
          | intros; apply in_snoc; intuition discriminate
          | intros; congruence | split; intros; congruence
          | intros; apply in_last
          | intros; exfalso; match goal with H : _ -> _ -> _ = WDone |- _ => specialize (H ltac:(assumption) ltac:(assumption)); discriminate H end
          | intros H; apply wake_m_waiting in H as [H H']; first [congruence|auto]
          | intros H; by apply wake_w_sleep in H
          | intros ?; apply wake_w_sleep
          | intros H; apply wake_w_eq in H; [auto|discriminate]
          | intros [H|H]; apply wake_w_eq in H; [apply in_snoc; auto|discriminate|apply in_snoc; auto|discriminate]
          | intros He Hx; match goal with H : _ -> _ -> ?w = WDone |- wake_w ?w = _ => by rewrite (H He Hx) end
          | match goal with m : mpc |- _ => destruct m; intros; try discriminate; exfalso; auto; fail end
          | match goal with |- _ /\ _ => split; [cbn [length]; lia|intros ?? Hx; rewrite lookup_nil in Hx; discriminate Hx] end
          | intros [H|H]; [discriminate H|]; injection H as ->; apply in_snoc; auto
          | match goal with |- _ = owns _ _ => cbn [owns] in *; congruence end
          | rewrite app_nil_r; auto
          | match goal with |- context [WSleep] => unfold AsyncReaderModel.ring in *; intros; lia end
          | match goal with |- _ -> _ <= _ => unfold AsyncReaderModel.ring in *; intros; lia end ].

  (** How the stream moves on in a step. *)
  Definition tracks (D : list N) (T l : nat) (ev : ev) (D' : list N) (T' l' : nat) : Prop :=
    match ev with
    | Block p bs => D' = D /\ T' = T + length bs /\ l' = length bs /\ p = T mod ring
    | _ => D `prefix_of` D' /\ T' = T /\ l' = l
    end.

  Lemma step_inv evs s D T l ev s' :
    inv evs s D T l -> step B s ev s' -> exists D' T' l', tracks D T l ev D' T' l' /\ inv (evs ++ [ev]) s' D' T' l'.
  Proof using HB.
    intros Hi Hs. pose proof (inv_in_buffer _ _ _ _ _ Hi) as Hin. destruct Hi. destruct Hs; subst; proj.
    all: try (match goal with H : true = owns _ ?lk |- _ => destruct lk as [[]|]; try discriminate H end; proj; cbn [owns] in *).
    all: try (exists D, T, l; split; [cbn; split; done|]; split; proj; wakes; rewrite ?del_snoc, ?ret_snoc by done; easy_field).
    - (* a block is returned *)
      destruct (slice_length _ _ _ _ H1) as [Hl Hle].
      exists D, (T + sz), sz. split; [cbn; rewrite Hl; done|]. split; proj; wakes; rewrite ?del_snoc by done; try easy_field.
      + rewrite i_begin0. rewrite mod_add_small by (unfold AsyncReaderModel.ring; lia). done.
      + intros j x Hj HDj. apply (i_data0 j x); [lia|done].
      + rewrite returned_snoc. cbn [returned_by]. rewrite i_ret0. subst b.
        apply (returned_block buf D bs T l sz); try done; lia.
    - exists D, T, l. split; [cbn; split; done|]. split; proj; wakes; rewrite ?del_snoc, ?ret_snoc by done; try easy_field.
      intros Hj. exfalso. assert (leaving m = true) as Hlm by (by destruct m). specialize (i_term'0 Hlm). discriminate.
    - destruct H as [Hlen Hsame].
      exists D, T, l. split; [cbn; split; done|]. split; proj; wakes; rewrite ?del_snoc, ?ret_snoc by done; try easy_field.
      + subst e. apply (scribbled_data buf buf' D T l); easy_field.
    - destruct (overwrite_spec _ _ _ _ H1) as (Hlen & Hnew & Hsame).
      exists D, T, l. split; [cbn; split; done|]. split; proj; wakes; rewrite ?ret_snoc by done; try easy_field.
      + subst e. apply (scribbled_data buf buf' D T l); try easy_field.
        intros i Hi. apply Hsame. lia.
      + split; [done|]. intros i x Hx. rewrite Hnew; [done|]. by apply lookup_lt_Some in Hx.
      + intros [He|He]; [|discriminate]. injection He as ->. done.
      + intros Ht. rewrite delivered_snoc. cbn [delivered_by]. specialize (i_pub0 Ht). rewrite app_nil_r in i_pub0. by rewrite i_pub0.
      + rewrite delivered_snoc. by apply prefix_app_r.
    - (* the bytes are stored *)
      subst e. destruct i_pend0 as [Hbl Hpend].
      destruct (stored_data buf buf' D T l bs e') as (Hlen & He & Hd); try easy_field.
      exists (D ++ bs), T, l. specialize (i_room0 eq_refl). pose proof (i_pub0 eq_refl) as Hpub.
      split; [cbn; split; [by apply prefix_app_r|done]|].
      split; proj; wakes; rewrite ?del_snoc, ?ret_snoc by done; rewrite ?app_length; try easy_field.
      + rewrite <- app_length. done.
      + rewrite Hpub. done.
      + rewrite take_app_le by lia. done.
  Qed.
End Reader.
