(** The levels of the parallel customization: every arc leads to a higher level. *)
From Verif Require Import Base UtilSpec GraphSpec PathSpec WalkSpec PermutationModel SortModel PermutationProofs SortProofs
  CchModel CchSpec CchCustomizeProofs CchBuildProofs CchParallelModel.
Ltac Zify.zify_post_hook ::= idtac.

Section Levels.
  Context (n : nat) (rt rh : list nat) (c : cch) (WF : wf_cch n rt rh c).
  Notation arcs := (length (up_head c)).

  (** arcs into [y] for which [f] is false *)
  Definition cnt (f : nat -> bool) (y : nat) : nat :=
    length (filter (fun a => f a = false /\ up_head c !! a = Some y) (seq 0 arcs)).
  Lemma cnt_ext f g y : (forall a, up_head c !! a = Some y -> f a = g a) -> cnt f y = cnt g y.
  Proof. intros H. unfold cnt. f_equal. apply list_filter_iff. intros a. split; intros [H1 H2]; split; try done; [rewrite <- H by done|rewrite H by done]; done. Qed.
  Lemma filter_step (P Q : nat -> Prop) `{!forall x, Decision (P x), !forall x, Decision (Q x)} (l : list nat) a :
    NoDup l -> a ∈ l -> P a -> ~ Q a -> (forall b, b <> a -> P b <-> Q b) -> length (filter P l) = S (length (filter Q l)).
  Proof.
    intros Hnd Ha HP HQ Hiff. induction l as [|x l IH]; [by apply elem_of_nil in Ha|].
    apply NoDup_cons in Hnd as [Hx Hnd]. rewrite !filter_cons. apply elem_of_cons in Ha as [<-|Ha].
    - rewrite decide_True, (decide_False (P := Q a)) by done. cbn. do 2 f_equal.
      clear IH. induction l as [|y l IH]; [done|]. rewrite !filter_cons. apply not_elem_of_cons in Hx as [Hne Hx].
      apply NoDup_cons in Hnd as [_ Hnd].
      destruct (decide (P y)) as [Hy|Hy]; (rewrite Hiff in Hy by done); [rewrite decide_True by done|rewrite decide_False by done];
        [f_equal|]; by apply IH.
    - assert (x <> a) as Hne by (by intros ->).
      destruct (decide (P x)) as [Hy|Hy]; rewrite Hiff in Hy by done; [rewrite decide_True by done|rewrite decide_False by done];
        cbn; rewrite IH by done; done.
  Qed.
  Lemma cnt_step f g y a : up_head c !! a = Some y -> f a = false -> g a = true -> (forall b, b <> a -> f b = g b) ->
    cnt f y = S (cnt g y) /\ forall z, z <> y -> cnt f z = cnt g z.
  Proof.
    intros Ha Hf Hg Hfg. split.
    - apply (filter_step _ _ _ a).
      + apply NoDup_seq.
      + apply elem_of_seq. apply lookup_lt_Some in Ha. lia.
      + done.
      + by intros [? _]; congruence.
      + intros b Hb. by rewrite Hfg.
    - intros z Hz. apply cnt_ext. intros b Hb. apply Hfg. intros ->. congruence.
  Qed.
  Lemma cnt_zero f y : cnt f y = 0 <-> forall a, up_head c !! a = Some y -> f a = true.
  Proof.
    unfold cnt. split.
    - intros H a Ha. apply nil_length_inv in H. destruct (f a) eqn:E; [done|].
      assert (a ∈ filter (fun a => f a = false /\ up_head c !! a = Some y) (seq 0 arcs)) as Hin.
      { apply elem_of_list_filter. split; [done|]. apply elem_of_seq. apply lookup_lt_Some in Ha. lia. }
      rewrite H in Hin. by apply elem_of_nil in Hin.
    - intros H. match goal with |- length ?s = 0 => destruct s as [|a l] eqn:E end; [done|].
      assert (a ∈ a :: l) as Hin by constructor. rewrite <- E in Hin. apply elem_of_list_filter in Hin as [[Hf Ha] _].
      apply H in Ha. congruence.
  Qed.

  (** [a] leaves a node of [P], or it is an arc of [x] before [k] *)
  Definition dn (P : list nat) (x k a : nat) : bool :=
    match up_tail c !! a with
    | Some u => bool_decide (u ∈ P) || (bool_decide (u = x) && bool_decide (a < k))
    | None => false
    end.
  Definition out (P : list nat) (a : nat) : bool := match up_tail c !! a with Some u => bool_decide (u ∈ P) | None => false end.

  Lemma head_arc a y : up_head c !! a = Some y -> exists u, up_arc c a u y.
  Proof.
    intros H. destruct (up_arc_exists _ _ _ _ WF a) as (u & v & Ha); [by eapply lookup_lt_Some|].
    exists u. destruct Ha as [? Hv]. rewrite H in Hv. injection Hv as <-. done.
  Qed.
  Lemma tail_range a x y lo hi : up_first_out c !! x = Some lo -> up_first_out c !! S x = Some hi -> up_arc c a x y -> lo <= a < hi.
  Proof. intros Hlo Hhi Ha. apply (up_arc_out _ _ _ _ WF) in Ha as [(l & h & ? & ? & ?) _]. by simplify_eq. Qed.

  Record linv (level : nat) (P Z next nl locks : list nat) : Prop := {
    li_nl : length nl = n; li_locks : length locks = n;
    li_nodup : NoDup (P ++ Z ++ next);
    li_lt : forall y, y ∈ P ++ Z ++ next -> y < n;
    li_lock : forall y, y < n -> locks !! y = Some (cnt (out P) y);
    li_zero : forall y, y < n -> cnt (out P) y = 0 -> y ∈ P ++ Z ++ next;
    li_zero' : forall y, y ∈ Z ++ next -> cnt (out P) y = 0;
    li_lev : forall x, x ∈ P -> exists l, nl !! x = Some l /\ l <= level;
    li_old : forall y a x, y ∈ Z -> up_arc c a x y -> exists l, nl !! x = Some l /\ l < level;
    li_arc : forall a x y, up_arc c a x y -> y ∈ P -> x ∈ P /\ exists lx ly, nl !! x = Some lx /\ nl !! y = Some ly /\ lx < ly }.

  Lemma nodup_len (l : list nat) : NoDup l -> (forall y, y ∈ l -> y < n) -> length l <= n.
  Proof.
    intros Hnd Hlt. rewrite <- (seq_length n 0). apply submseteq_length, NoDup_submseteq; [done|].
    intros y Hy. apply elem_of_seq. specialize (Hlt _ Hy). lia.
  Qed.

  Lemma out_in P a x y : up_arc c a x y -> out P a = true <-> x ∈ P.
  Proof. intros [Hx _]. unfold out. rewrite Hx. apply bool_decide_eq_true. Qed.

  Lemma unlock_node_spec level P x Z next nl locks :
    linv level P (x :: Z) next nl locks ->
    exists nl' locks' next', unlock_node c level x (nl, locks, next) = Some (nl', locks', next') /\
      linv level (P ++ [x]) Z next' nl' locks'.
  Proof.
    intros I. assert (x < n) as Hxn by (apply (li_lt _ _ _ _ _ _ I); rewrite !elem_of_app; right; left; constructor).
    assert (x ∉ P) as HxP.
    { intros HP. pose proof (li_nodup _ _ _ _ _ _ I) as Hnd. apply NoDup_app in Hnd as (_ & Hd & _). apply (Hd x HP). constructor. }
    unfold unlock_node. rewrite wr_Some by (rewrite (li_nl _ _ _ _ _ _ I); lia). bs.
    destruct (csr_range _ _ _ x (wf_up _ _ _ _ WF) Hxn) as (lo & hi & Hlo & Hhi & Hle). rewrite Hlo, bind_S, Hhi, bind_S.
    destruct (for_range_inv (fun k '(locks, next) =>
       length locks = n /\ NoDup (P ++ (x :: Z) ++ next) /\ (forall y, y ∈ P ++ (x :: Z) ++ next -> y < n) /\
       (forall y, y < n -> locks !! y = Some (cnt (dn P x k) y)) /\
       (forall y, y < n -> cnt (dn P x k) y = 0 -> y ∈ P ++ (x :: Z) ++ next) /\
       (forall y, y ∈ (x :: Z) ++ next -> cnt (dn P x k) y = 0))
      (unlock_arc c) lo hi (locks, next)) as ([locks' next'] & E & H1 & H2 & H3 & H4 & H5 & H6).
    - lia.
    - assert (forall y, cnt (dn P x lo) y = cnt (out P) y) as Hc.
      { intros y. apply cnt_ext. intros a (u & Hu)%head_arc. unfold dn, out. destruct Hu as [Hu Hy]. rewrite Hu.
        destruct (decide (u = x)) as [->|Hne].
        - pose proof (tail_range a x y lo hi Hlo Hhi (conj Hu Hy)). rewrite (bool_decide_false (a < lo)) by lia. by rewrite andb_false_r, orb_false_r.
        - rewrite (bool_decide_false (u = x)) by done. by rewrite orb_false_r. }
      split; [apply I|]. split; [apply I|]. split; [apply I|]. split; [|split].
      + intros y Hy. rewrite Hc. by apply I.
      + intros y Hy. rewrite Hc. by apply I.
      + intros y Hy. rewrite Hc. by apply I.
    - intros a [lk nx] Ha (H1 & H2 & H3 & H4 & H5 & H6). unfold unlock_arc.
      destruct (lookup_lt_is_Some_2 (up_head c) a) as [y Hy]; [lia|].
      assert (up_arc c a x y) as Hxy. { apply (up_arc_out _ _ _ _ WF). split; [|done]. by exists lo, hi. }
      pose proof (up_arc_lt _ _ _ _ WF _ _ _ Hxy) as (_ & Hlt & Hyn).
      destruct (cnt_step (dn P x a) (dn P x (S a)) y a) as [Hs Hs'].
      { done. }
      { unfold dn. destruct Hxy as [-> _]. rewrite (bool_decide_false (x ∈ P)), (bool_decide_false (a < a)) by (done || lia). by rewrite andb_false_r. }
      { unfold dn. destruct Hxy as [-> _]. rewrite (bool_decide_true (a < S a)), (bool_decide_true (x = x)) by (done || lia). by rewrite orb_true_r. }
      { intros b Hb. unfold dn. destruct (up_tail c !! b); [|done]. do 2 f_equal. apply bool_decide_ext. lia. }
      rewrite Hy, bind_S, (H4 y Hyn), bind_S, Hs. rewrite wr_Some by lia. bs.
      assert (forall z, z < n -> <[y:=cnt (dn P x (S a)) y]> lk !! z = Some (cnt (dn P x (S a)) z)) as H4'.
      { intros z Hz. destruct (decide (z = y)) as [->|Hne]; [apply list_lookup_insert; lia|].
        rewrite list_lookup_insert_ne by done. by rewrite H4, Hs'. }
      case_decide as Hz.
      + assert (y ∉ P ++ (x :: Z) ++ nx) as Hny.
        { rewrite elem_of_app. intros [HP|HZ].
          - pose proof (li_arc _ _ _ _ _ _ I _ _ _ Hxy HP) as [? _]. done.
          - specialize (H6 _ HZ). lia. }
        assert (NoDup (P ++ (x :: Z) ++ nx ++ [y])) as Hnd.
        { rewrite !app_assoc. apply NoDup_app. rewrite <- !app_assoc. split; [done|].
          split; [|apply NoDup_singleton]. intros z Hzz Hz2. apply elem_of_list_singleton in Hz2 as ->. done. }
        assert (forall z, z ∈ P ++ (x :: Z) ++ nx ++ [y] -> z < n) as Hlt'.
        { intros z. rewrite !app_assoc. rewrite elem_of_app. rewrite <- !app_assoc. intros [?| ->%elem_of_list_singleton]; [by apply H3|done]. }
        pose proof (nodup_len _ Hnd Hlt') as Hlen. rewrite !app_length in Hlen. cbn in Hlen.
        unfold c_node_count. rewrite (wf_n _ _ _ _ WF). rewrite bool_decide_true by lia. cbn [chk]. bs.
        eexists. split; [done|]. split; [by rewrite insert_length|]. split; [done|]. split; [done|]. split; [done|]. split.
        * intros z Hzn Hz0. rewrite !app_assoc, elem_of_app, <- !app_assoc. destruct (decide (z = y)) as [->|Hne]; [right; constructor|left].
          apply H5; [done|]. by rewrite Hs'.
        * intros z. rewrite app_assoc, elem_of_app. intros [HZ| ->%elem_of_list_singleton]; [|done].
          destruct (decide (z = y)) as [->|Hne]; [done|]. rewrite <- Hs' by done. by apply H6.
      + eexists. split; [done|]. split; [by rewrite insert_length|]. split; [done|]. split; [done|]. split; [done|]. split.
        * intros z Hzn Hz0. apply H5; [done|]. destruct (decide (z = y)) as [->|Hne]; [done|]. by rewrite Hs'.
        * intros z HZ. specialize (H6 _ HZ). destruct (decide (z = y)) as [->|Hne]; [lia|]. by rewrite <- Hs'.
    - rewrite E. bs. eexists _, _, _. split; [done|].
      assert (forall y, cnt (dn P x hi) y = cnt (out (P ++ [x])) y) as Hc.
      { intros y. apply cnt_ext. intros a (u & Hu)%head_arc. unfold dn, out. destruct Hu as [Hu Hy]. rewrite Hu.
        destruct (decide (u = x)) as [->|Hne].
        - pose proof (tail_range a x y lo hi Hlo Hhi (conj Hu Hy)).
          rewrite (bool_decide_true (a < hi)), (bool_decide_true (x = x)), (bool_decide_true (x ∈ P ++ [x])) by (done || lia || (apply elem_of_app; right; constructor)).
          by rewrite orb_true_r.
        - rewrite (bool_decide_false (u = x)) by done. rewrite orb_false_r. apply bool_decide_ext.
          rewrite elem_of_app. rewrite elem_of_list_singleton. naive_solver. }
      assert (forall l, (P ++ [x]) ++ Z ++ l = P ++ (x :: Z) ++ l) as Happ by (intros; by rewrite <- !app_assoc).
      assert (forall y l, nl !! y = Some l -> y <> x -> <[x:=level]> nl !! y = Some l) as Hold by (intros; by rewrite list_lookup_insert_ne).
      split.
      + rewrite insert_length. apply I.
      + done.
      + by rewrite Happ.
      + by rewrite Happ.
      + intros y Hy. rewrite <- Hc. by apply H4.
      + intros y Hy. rewrite <- Hc, Happ. by apply H5.
      + intros y Hy. rewrite <- Hc. apply H6. by constructor.
      + intros y [Hy| ->%elem_of_list_singleton]%elem_of_app.
        * destruct (li_lev _ _ _ _ _ _ I y Hy) as (l & Hl & Hle'). exists l. split; [|done]. apply Hold; [done|]. by intros ->.
        * exists level. split; [|done]. apply list_lookup_insert. rewrite (li_nl _ _ _ _ _ _ I). lia.
      + intros y a u Hy Ha. destruct (li_old _ _ _ _ _ _ I y a u) as (l & Hl & Hll); [by constructor|done|].
        exists l. split; [|done]. apply Hold; [done|]. intros ->.
        assert (cnt (out P) y = 0) as H0 by (apply I; constructor; by apply elem_of_app; left).
        apply cnt_zero with (a := a) in H0; [|apply Ha]. by apply (out_in _ _ _ _ Ha) in H0.
      + intros a u y Ha [Hy|Hy]%elem_of_app.
        * destruct (li_arc _ _ _ _ _ _ I _ _ _ Ha Hy) as (HuP & lx & ly & Hx & Hly & Hll). split; [apply elem_of_app; by left|].
          exists lx, ly. split; [apply Hold; [done|by intros ->]|]. split; [|done]. apply Hold; [done|]. by intros ->.
        * apply elem_of_list_singleton in Hy as ->.
          assert (cnt (out P) x = 0) as H0 by (apply I; constructor).
          apply cnt_zero with (a := a) in H0; [|apply Ha]. apply (out_in _ _ _ _ Ha) in H0.
          split; [apply elem_of_app; by left|].
          destruct (li_old _ _ _ _ _ _ I x a u) as (l & Hl & Hll); [constructor|done|].
          exists l, level. split; [apply Hold; [done|by intros ->]|]. split; [|done]. apply list_lookup_insert. rewrite (li_nl _ _ _ _ _ _ I). lia.
  Qed.

  Lemma round_linv level Z P next nl locks :
    linv level P Z next nl locks ->
    exists nl' locks' next', for_each Z (unlock_node c level) (nl, locks, next) = Some (nl', locks', next') /\
      linv level (P ++ Z) [] next' nl' locks'.
  Proof.
    revert P next nl locks. induction Z as [|x Z IH]; intros P next nl locks I.
    - exists nl, locks, next. split; [done|]. by rewrite app_nil_r.
    - cbn [for_each]. destruct (unlock_node_spec _ _ _ _ _ _ _ I) as (nl1 & lk1 & nx1 & -> & I1). bs.
      destruct (IH _ _ _ _ I1) as (nl2 & lk2 & nx2 & -> & I2). eexists _, _, _. split; [done|]. by rewrite <- app_assoc in I2.
  Qed.

  Definition levels_ok (lc : nat) (nl : list nat) : Prop :=
    length nl = n /\ (forall x l, nl !! x = Some l -> l < lc) /\
    forall a x y lx ly, up_arc c a x y -> nl !! x = Some lx -> nl !! y = Some ly -> lx < ly.

  Lemma linv_next level P next nl locks : linv level P [] next nl locks -> linv (S level) P next [] nl locks.
  Proof.
    intros I. split; try apply I.
    - rewrite app_nil_r. apply (li_nodup _ _ _ _ _ _ I).
    - rewrite app_nil_r. apply (li_lt _ _ _ _ _ _ I).
    - rewrite app_nil_r. apply (li_zero _ _ _ _ _ _ I).
    - rewrite app_nil_r. apply (li_zero' _ _ _ _ _ _ I).
    - intros x Hx. destruct (li_lev _ _ _ _ _ _ I x Hx) as (l & ? & ?). exists l. split; [done|lia].
    - intros y a x Hy Ha. assert (cnt (out P) y = 0) as H0 by (by apply (li_zero' _ _ _ _ _ _ I)).
      apply cnt_zero with (a := a) in H0; [|apply Ha]. apply (out_in _ _ _ _ Ha) in H0.
      destruct (li_lev _ _ _ _ _ _ I x H0) as (l & ? & ?). exists l. split; [done|lia].
  Qed.

  Lemma level_loop_spec fuel level P Z nl locks :
    linv level P Z [] nl locks -> (forall x, x ∈ P -> exists l, nl !! x = Some l /\ l < level) -> n <= fuel + length P ->
    exists lc nl', level_loop c fuel level Z nl locks = Some (lc, nl') /\ levels_ok lc nl'.
  Proof.
    revert level P Z nl locks. induction fuel as [|fuel IH]; intros level P Z nl locks I Hlev Hf.
    all: destruct Z as [|z Z].
    1, 3: (exists level, nl; split; [done|];
      assert (forall y, y < n -> y ∈ P) as Hall;
      [intros y; induction (lt_wf y) as [y _ IHy]; intros Hy;
       assert (y ∈ P ++ [] ++ []) as HP;
       [apply (li_zero _ _ _ _ _ _ I); [done|]; apply cnt_zero; intros a (u & Ha)%head_arc; apply (out_in _ _ _ _ Ha);
        pose proof (up_arc_lt _ _ _ _ WF _ _ _ Ha); apply IHy; lia
       |by rewrite !app_nil_r in HP]
      |split; [apply I|split];
       [intros x l Hl; destruct (Hlev x) as (l' & Hl' & ?);
        [apply Hall; rewrite <- (li_nl _ _ _ _ _ _ I); by eapply lookup_lt_Some|rewrite Hl in Hl'; injection Hl' as <-; done]
       |intros a x y lx ly Ha Hx Hy; destruct (li_arc _ _ _ _ _ _ I _ _ _ Ha) as (_ & lx' & ly' & E1 & E2 & ?);
        [apply Hall; by apply (up_arc_lt _ _ _ _ WF) in Ha as (_ & _ & ?)|rewrite Hx in E1; rewrite Hy in E2; injection E1 as <-; injection E2 as <-; done]]]).
    - exfalso. pose proof (nodup_len _ (li_nodup _ _ _ _ _ _ I) (li_lt _ _ _ _ _ _ I)) as Hl.
      rewrite !app_length in Hl. cbn in Hl. lia.
    - cbn [level_loop]. destruct (round_linv _ _ _ _ _ _ I) as (nl1 & lk1 & nx1 & -> & I1). bs.
      eapply IH; [eapply linv_next, I1| |].
      + intros x Hx. destruct (li_lev _ _ _ _ _ _ I1 x Hx) as (l & ? & ?). exists l. split; [done|lia].
      + rewrite app_length. cbn. lia.
  Qed.

  Lemma initial_locks_spec : exists locks zero, initial_locks c = Some (locks, zero) /\ linv 0 [] zero [] (replicate n 0) locks.
  Proof.
    assert (forall y lo hi, down_first_out c !! y = Some lo -> down_first_out c !! S y = Some hi -> lo <= hi -> hi - lo = cnt (out []) y) as Hcnt.
    { intros y lo hi Hlo Hhi Hle. unfold cnt.
      assert (forall b, lo <= b < hi -> exists z a, down_head c !! b = Some z /\ down_to_up c !! b = Some a /\ up_arc c a z y) as Hd.
      { intros b Hb. assert (out_arc (down_first_out c) y b) as Ho by (by exists lo, hi).
        destruct (out_arc_lt _ _ _ _ _ (wf_down _ _ _ _ WF) Ho) as [_ Hbl].
        destruct (lookup_lt_is_Some_2 _ _ Hbl) as [z Hz]. destruct (wf_down_up _ _ _ _ WF _ _ _ Ho Hz) as (a & ? & ?). by exists z, a. }
      assert (exists l, length l = hi - lo /\ NoDup l /\ forall a, a ∈ l <-> exists b, lo <= b < hi /\ down_to_up c !! b = Some a) as (l & Hll & Hnd & Hl).
      { exists ((fun b => default 0 (down_to_up c !! b)) <$> seq lo (hi - lo)). split; [by rewrite fmap_length, seq_length|]. split.
        - apply NoDup_fmap_2_strong; [|apply NoDup_seq]. intros b b' Hb%elem_of_seq Hb'%elem_of_seq.
          destruct (Hd b) as (z & a & Hz & Ha & Hu); [lia|]. destruct (Hd b') as (z' & a' & Hz' & Ha' & Hu'); [lia|].
          rewrite Ha, Ha'. cbn. intros <-. destruct (up_arc_fun _ _ _ _ _ _ Hu Hu') as [<- _].
          assert (out_arc (down_first_out c) y b) as Ho by (exists lo, hi; split; [done|split; [done|lia]]).
          assert (out_arc (down_first_out c) y b') as Ho' by (exists lo, hi; split; [done|split; [done|lia]]).
          destruct (lt_eq_lt_dec b b') as [[Hlt| ->]|Hlt]; [|done|].
          + pose proof (wf_downsorted _ _ _ _ WF _ _ _ _ _ Ho Ho' Hlt Hz Hz'). lia.
          + pose proof (wf_downsorted _ _ _ _ WF _ _ _ _ _ Ho' Ho Hlt Hz' Hz). lia.
        - intros a. rewrite elem_of_list_fmap. split.
          + intros (b & -> & Hb%elem_of_seq). destruct (Hd b) as (z & a & _ & Ha & _); [lia|]. exists b. rewrite Ha. split; [lia|done].
          + intros (b & Hb & Ha). exists b. rewrite Ha. split; [done|]. apply elem_of_seq. lia. }
      rewrite <- Hll. apply Permutation_length, NoDup_Permutation; [done|apply NoDup_filter, NoDup_seq|].
      intros a. rewrite Hl, elem_of_list_filter, elem_of_seq. split.
      - intros (b & Hb & Ha). destruct (Hd b Hb) as (z & a' & Hz & Ha' & Hu). rewrite Ha in Ha'. injection Ha' as <-.
        pose proof (up_arc_lt _ _ _ _ WF _ _ _ Hu). split; [split|lia]; [|apply Hu]. unfold out. destruct Hu as [-> _]. apply bool_decide_eq_false, not_elem_of_nil.
      - intros [[_ Hy] _]. destruct (head_arc _ _ Hy) as [u Hu]. destruct (wf_up_down _ _ _ _ WF _ _ _ Hu) as (b & (lo' & hi' & ? & ? & ?) & _ & Hb).
        simplify_eq. by exists b. }
    unfold initial_locks, c_node_count. rewrite (wf_n _ _ _ _ WF).
    destruct (for_range_inv (fun k '(locks, zero) => length locks = n /\ NoDup zero /\ (forall y, y ∈ zero -> y < k /\ cnt (out []) y = 0) /\
        (forall y, y < k -> locks !! y = Some (cnt (out []) y)) /\ (forall y, y < k -> cnt (out []) y = 0 -> y ∈ zero))
      (fun x '(locks, zero) =>
         hi ← down_first_out c !! S x; lo ← down_first_out c !! x;
         locks ← wr locks x (hi - lo);
         if decide (hi - lo = 0) then _ ← chk (bool_decide (length zero < n)); Some (locks, zero ++ [x])
         else Some (locks, zero)) 0 n (replicate n 0, [])) as ([locks zero] & E & H1 & H2 & H3 & H4 & H5).
    - lia.
    - split; [apply replicate_length|]. split; [constructor|]. split; [by intros ? ?%elem_of_nil|]. split; intros; lia.
    - intros x [lk ze] Hx (H1 & H2 & H3 & H4 & H5).
      destruct (csr_range _ _ _ x (wf_down _ _ _ _ WF)) as (lo & hi & Hlo & Hhi & Hle); [lia|].
      pose proof (Hcnt _ _ _ Hlo Hhi ltac:(lia)) as Hc. rewrite Hhi, bind_S, Hlo, bind_S, Hc, wr_Some, bind_S by lia.
      assert (forall y, y < S x -> <[x:=cnt (out []) x]> lk !! y = Some (cnt (out []) y)) as H4'.
      { intros y Hy. destruct (decide (y = x)) as [->|]; [apply list_lookup_insert; lia|]. rewrite list_lookup_insert_ne by done. apply H4. lia. }
      case_decide as Hz.
      + assert (x ∉ ze) as Hnx by (intros Hin; apply H3 in Hin; lia).
        assert (length (x :: ze) <= n) as Hlen.
        { apply nodup_len; [by constructor|]. intros y [->|Hy%H3]%elem_of_cons; lia. }
        cbn in Hlen. rewrite bool_decide_true by lia. cbn [chk]. bs. eexists. split; [done|].
        split; [by rewrite insert_length|]. split.
        { apply NoDup_app. split; [done|]. split; [|apply NoDup_singleton]. by intros y Hy ->%elem_of_list_singleton. }
        split; [|split; [done|]].
        * intros y [[? ?]%H3| ->%elem_of_list_singleton]%elem_of_app; split; (done || lia).
        * intros y Hy Hy0. apply elem_of_app. destruct (decide (y = x)) as [->|]; [right; constructor|left]. apply H5; [lia|done].
      + eexists. split; [done|]. split; [by rewrite insert_length|]. split; [done|]. split; [|split; [done|]].
        * intros y [? ?]%H3; split; (done || lia).
        * intros y Hy Hy0. apply H5; [|done]. destruct (decide (y = x)) as [->|]; [done|lia].
    - rewrite E. exists locks, zero. split; [done|]. split; rewrite ?app_nil_r; cbn [app].
      + apply replicate_length.
      + done.
      + done.
      + intros y Hy. by apply H3.
      + done.
      + intros y Hy Hy0. by apply H5.
      + intros y Hy. by apply H3.
      + by intros ? ?%elem_of_nil.
      + intros y a x Hy Ha. apply H3 in Hy as [_ Hy]. apply cnt_zero with (a := a) in Hy; [|apply Ha].
        apply (out_in _ _ _ _ Ha) in Hy. by apply elem_of_nil in Hy.
      + by intros ? ? ? ? ?%elem_of_nil.
  Qed.

  Lemma compute_levels_spec : exists lc nl, compute_levels c = Some (lc, nl) /\ levels_ok lc nl.
  Proof.
    unfold compute_levels. destruct initial_locks_spec as (locks & zero & -> & I). bs. unfold c_node_count. rewrite (wf_n _ _ _ _ WF).
    eapply level_loop_spec; [exact I| |cbn; lia]. by intros ? ?%elem_of_nil.
  Qed.

  Lemma sorted_snoc (l : list nat) x : StronglySorted le l -> (forall y, y ∈ l -> y <= x) -> StronglySorted le (l ++ [x]).
  Proof.
    induction 1 as [|z l _ IH Hz]; intros H; cbn.
    - repeat constructor.
    - constructor; [apply IH; intros; apply H; by constructor|].
      apply Forall_app. split; [done|]. constructor; [|constructor]. apply H. constructor.
  Qed.

  (** Level [l] consists of the arcs leaving nodes of level [l]. *)
  Definition lv_ok (lc : nat) (nl : list nat) (lv : levels) : Prop :=
    length (first_arc_of_level lv) = S lc /\
    (forall l lo hi, first_arc_of_level lv !! l = Some lo -> first_arc_of_level lv !! S l = Some hi -> lo <= hi) /\
    (forall l i, out_arc (first_arc_of_level lv) l i -> exists a u, arcs_by_level lv !! i = Some a /\ up_tail c !! a = Some u /\ nl !! u = Some l) /\
    (forall a u v, up_arc c a u v -> exists l i, nl !! u = Some l /\ out_arc (first_arc_of_level lv) l i /\ arcs_by_level lv !! i = Some a).

  Lemma build_levels_spec : exists lc nl lv, build_levels c = Some lv /\ levels_ok lc nl /\ lv_ok lc nl lv.
  Proof.
    unfold build_levels. destruct compute_levels_spec as (lc & nl & -> & Hnl & Hlc & Harc). bs.
    destruct (compute_stable_sort_permutation_correct (fun x => x) nl lc) as (p & -> & Hp & Hsort).
    { intros x [i Hi]%elem_of_list_lookup. by eapply Hlc. }
    bs. unfold c_node_count. rewrite (wf_n _ _ _ _ WF).
    assert (length p = n) as Hpl by (by rewrite Hp, seq_length).
    assert (NoDup p) as Hpn by (rewrite Hp; apply NoDup_seq).
    assert (forall x, x ∈ p <-> x < n) as Hpin by (intros; rewrite Hp, elem_of_seq; lia).
    pose (J := fun (D : nat -> nat -> Prop) (st : list nat * list nat) => length st.1 = length st.2 /\ NoDup st.2 /\ StronglySorted le st.1 /\
      (forall j a, st.2 !! j = Some a -> exists u l, up_tail c !! a = Some u /\ nl !! u = Some l /\ st.1 !! j = Some l /\ D u a) /\
      (forall a u, up_tail c !! a = Some u -> D u a -> a ∈ st.2)).
    destruct (for_range_inv (fun i st => J (fun u _ => u ∈ take i p) st)
      (fun i '(al, arcs) =>
      x ← p !! i; lo ← up_first_out c !! x; hi ← up_first_out c !! S x;
      for_range lo hi (fun xy '(al, arcs) =>
        l ← nl !! x;
        _ ← chk (bool_decide (length arcs < c_arc_count c));
        Some (al ++ [l], arcs ++ [xy])) (al, arcs)) 0 n ([], [])) as ([al ars] & E & H1 & H2 & H3 & H4 & H5).
    - lia.
    - split; [done|]. split; [constructor|]. split; [constructor|]. split; [done|]. by intros a u _ ?%elem_of_nil.
    - intros i [al ars] Hi HJ. destruct (lookup_lt_is_Some_2 p i) as [x Hx]; [lia|]. rewrite Hx, bind_S.
      assert (x < n) as Hxn by (apply Hpin; by eapply elem_of_list_lookup_2).
      destruct (csr_range _ _ _ x (wf_up _ _ _ _ WF) Hxn) as (lo & hi & Hlo & Hhi & Hle). rewrite Hlo, bind_S, Hhi, bind_S.
      destruct (lookup_lt_is_Some_2 nl x) as [l Hl]; [lia|].
      assert (x ∉ take i p) as Hnx.
      { intros (j & Hj)%elem_of_list_lookup. apply lookup_take_Some in Hj as [Hj ?]. pose proof (NoDup_lookup _ _ _ _ Hpn Hj Hx). lia. }
      destruct (for_range_inv (fun k st => J (fun u a => u ∈ take i p \/ (u = x /\ a < k)) st) (fun xy '(al, arcs) =>
        l ← nl !! x;
        _ ← chk (bool_decide (length arcs < c_arc_count c));
        Some (al ++ [l], arcs ++ [xy])) lo hi (al, ars)) as (st & E & HJ').
      + lia.
      + destruct HJ as (H1 & H2 & H3 & H4 & H5). split; [done|]. split; [done|]. split; [done|]. split.
        * intros j a Ha. destruct (H4 j a Ha) as (u & l' & ? & ? & ? & ?). exists u, l'. eauto.
        * intros a u Hu [?|[-> Hlt]]; [eauto|]. exfalso.
          destruct (lookup_lt_is_Some_2 (up_head c) a) as [y Hy]; [rewrite <- (proj1 (wf_tails _ _ _ _ WF)); by eapply lookup_lt_Some|].
          pose proof (tail_range a x y lo hi Hlo Hhi (conj Hu Hy)). lia.
      + intros a [al' ars'] Ha (H1 & H2 & H3 & H4 & H5). cbn [fst snd] in *.
        destruct (lookup_lt_is_Some_2 (up_head c) a) as [y Hy]; [lia|].
        assert (up_arc c a x y) as Hxy. { apply (up_arc_out _ _ _ _ WF). split; [|done]. by exists lo, hi. }
        assert (a ∉ ars') as Hna.
        { intros (j & Hj)%elem_of_list_lookup. destruct (H4 j a Hj) as (u & l' & Hu & _ & _ & HD). destruct Hxy as [Hx' _]. rewrite Hu in Hx'. injection Hx' as ->.
          destruct HD as [?|[_ ?]]; [done|lia]. }
        assert (NoDup (ars' ++ [a])) as Hnd.
        { apply NoDup_app. split; [done|]. split; [|apply NoDup_singleton]. by intros z Hz ->%elem_of_list_singleton. }
        assert (length (ars' ++ [a]) <= length (up_head c)) as Hlen.
        { rewrite <- (seq_length (length (up_head c)) 0). apply submseteq_length, NoDup_submseteq; [done|].
          intros z. rewrite elem_of_seq. intros [(j & Hj)%elem_of_list_lookup| ->%elem_of_list_singleton]%elem_of_app; [|lia].
          destruct (H4 j z Hj) as (u & l' & Hu & _). apply lookup_lt_Some in Hu. rewrite (proj1 (wf_tails _ _ _ _ WF)) in Hu. lia. }
        rewrite app_length in Hlen. cbn in Hlen. rewrite Hl, bind_S. unfold c_arc_count. rewrite bool_decide_true by lia. cbn [chk]. bs.
        eexists. split; [done|]. unfold J. cbn [fst snd]. split; [rewrite !app_length; cbn; lia|]. split; [done|]. split; [|split].
        * apply sorted_snoc; [done|]. intros l1 (j & Hj)%elem_of_list_lookup.
          destruct (lookup_lt_is_Some_2 ars' j) as [a' Ha']; [rewrite <- H1; by eapply lookup_lt_Some|].
          destruct (H4 j a' Ha') as (u & l' & Hu & Hul & Hj' & HD). rewrite Hj in Hj'. injection Hj' as <-.
          destruct HD as [(k & Hk)%elem_of_list_lookup|[-> _]]; [|simplify_eq; lia].
          apply lookup_take_Some in Hk as [Hk ?]. destruct (Hsort k i u x l1 l) as [?|[? _]]; (done || lia).
        * intros j b. rewrite lookup_app_Some. intros [Hb|[Hj Hb]].
          -- destruct (H4 j b Hb) as (u & l' & ? & ? & ? & HD). exists u, l'. split; [done|]. split; [done|].
             split; [by apply lookup_app_l_Some|]. destruct HD as [?|[? ?]]; [by left|right; split; [done|lia]].
          -- destruct (j - length ars') as [|k] eqn:Ek; [|by rewrite lookup_nil in Hb || (cbn in Hb; done)]. cbn in Hb. injection Hb as <-.
             assert (j = length al') as -> by lia. exists x, l. split; [apply Hxy|]. split; [done|]. split; [by rewrite lookup_app_r, Nat.sub_diag by lia|].
             right. split; [done|lia].
        * intros b u Hu HD. rewrite elem_of_app. destruct (decide (b = a)) as [->|Hne]; [right; constructor|left].
          apply (H5 b u Hu). destruct HD as [?|[? ?]]; [by left|right; split; [done|lia]].
      + exists st. rewrite E. split; [done|]. destruct HJ' as (H1 & H2 & H3 & H4 & H5).
        assert (forall u, u ∈ take (S i) p <-> u ∈ take i p \/ u = x) as Htake.
        { intros u. rewrite (take_S_r _ _ _ Hx), elem_of_app, elem_of_list_singleton. done. }
        split; [done|]. split; [done|]. split; [done|]. split.
        * intros j a Ha. destruct (H4 j a Ha) as (u & l' & ? & ? & ? & HD). exists u, l'. split; [done|]. split; [done|]. split; [done|].
          apply Htake. destruct HD as [?|[? ?]]; [by left|by right].
        * intros a u Hu HD. apply (H5 a u Hu). apply Htake in HD as [?| ->]; [by left|right]. split; [done|].
          destruct (lookup_lt_is_Some_2 (up_head c) a) as [y Hy]; [rewrite <- (proj1 (wf_tails _ _ _ _ WF)); by eapply lookup_lt_Some|].
          pose proof (tail_range a x y lo hi Hlo Hhi (conj Hu Hy)). lia.
    - rewrite E. bs. cbn [fst snd] in *.
      assert (forall x, x ∈ al -> x < lc) as Hall.
      { intros l (j & Hj)%elem_of_list_lookup. destruct (lookup_lt_is_Some_2 ars j) as [a Ha]; [rewrite <- H1; by eapply lookup_lt_Some|].
        destruct (H4 j a Ha) as (u & l' & _ & Hul & Hj' & _). rewrite Hj in Hj'. injection Hj' as <-. by eapply Hlc. }
      destruct (index_spec lc al al eq_refl H3 Hall Hall) as (fo & -> & Hcsr & Hfo). bs.
      exists lc, nl, (mkLevels fo ars). split; [done|]. split; [done|]. cbn [first_arc_of_level arcs_by_level].
      split; [apply Hcsr|]. split; [apply Hcsr|]. split.
      + intros l i Hi%Hfo. destruct (lookup_lt_is_Some_2 ars i) as [a Ha]; [rewrite <- H1; by eapply lookup_lt_Some|].
        destruct (H4 i a Ha) as (u & l' & Hu & Hul & Hj' & _). rewrite Hi in Hj'. injection Hj' as <-. by exists a, u.
      + intros a u v Ha. assert (u < n) as Hun by (pose proof (up_arc_lt _ _ _ _ WF _ _ _ Ha); lia).
        assert (u ∈ take n p) as Hut by (rewrite take_ge by lia; by apply Hpin).
        destruct (elem_of_list_lookup_1 _ _ (H5 a u (proj1 Ha) Hut)) as (i & Hi).
        destruct (H4 i a Hi) as (u' & l & Hu & Hul & Hal & _). destruct Ha as [Hu' _]. rewrite Hu in Hu'. injection Hu' as ->.
        exists l, i. split; [done|]. split; [by apply Hfo|done].
  Qed.
End Levels.
