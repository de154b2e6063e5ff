(** Correctness of the arc clean-up. *)
From Verif Require Import Base UtilSpec WalkSpec PermutationModel PermutationProofs GraphUtilModel GraphUtilProofs SortProofs ChCleanModel ChCleanSpec.
Ltac Zify.zify_post_hook ::= idtac.

(** ** The four arrays as one list of arcs *)
Notation arc := ((nat * nat) * (N * nat))%type.
Definition key (x : arc) : nat * nat := fst x.
Definition wt (x : arc) : N := fst (snd x).
Definition aid (x : arc) : nat := snd (snd x).
Definition tup (s : arcs4) : list arc := zip (zip (a_tail s) (a_head s)) (zip (a_weight s) (a_id s)).
Definition ok4 (m : nat) (s : arcs4) : Prop :=
  length (a_tail s) = m /\ length (a_head s) = m /\ length (a_weight s) = m /\ length (a_id s) = m.

Lemma zip_lookup {A B} (l : list A) (k : list B) i x y : zip l k !! i = Some (x, y) <-> l !! i = Some x /\ k !! i = Some y.
Proof. rewrite lookup_zip_with_Some. split; [intros (? & ? & ? & ? & ?); by simplify_eq|intros []; eauto]. Qed.
Lemma tup_lookup s i t h w d : tup s !! i = Some ((t, h), (w, d)) <->
  a_tail s !! i = Some t /\ a_head s !! i = Some h /\ a_weight s !! i = Some w /\ a_id s !! i = Some d.
Proof. unfold tup. rewrite !zip_lookup. tauto. Qed.
Lemma tup_length m s : ok4 m s -> length (tup s) = m.
Proof. intros (? & ? & ? & ?). unfold tup. rewrite !zip_with_length. lia. Qed.
Lemma tup_some m s i : ok4 m s -> i < m -> exists t h w d, tup s !! i = Some ((t, h), (w, d)).
Proof.
  intros Hok Hi. destruct (lookup_lt_is_Some_2 (tup s) i) as [[[t h] [w d]] Hx]; [by rewrite (tup_length m)|]. eauto.
Qed.

Lemma copy_arc_spec m s out inp : ok4 m s -> inp < m -> out < m ->
  exists s' x, copy_arc s out inp = Some s' /\ ok4 m s' /\ tup s !! inp = Some x /\ tup s' = <[out := x]> (tup s).
Proof.
  intros Hok Hi Ho. destruct (tup_some m s inp Hok Hi) as (t & h & w & d & Hx).
  pose proof Hx as (Ht & Hh & Hw & Hd)%tup_lookup. destruct Hok as (? & ? & ? & ?).
  unfold copy_arc. rewrite Ht, bind_S. rewrite (wr_Some (a_tail s)) by lia. rewrite bind_S.
  rewrite Hh, bind_S. rewrite (wr_Some (a_head s)) by lia. rewrite bind_S.
  rewrite Hw, bind_S. rewrite (wr_Some (a_weight s)) by lia. rewrite bind_S.
  rewrite Hd, bind_S. rewrite (wr_Some (a_id s)) by lia. rewrite bind_S.
  eexists _, _. split; [done|]. split; [by unfold ok4; cbn; rewrite !insert_length|]. split; [done|].
  unfold tup. cbn. by rewrite !insert_zip_with.
Qed.

(** ** Dropping loops *)
Definition nonloop (x : arc) : Prop := (key x).1 <> (key x).2.
#[local] Instance nonloop_dec x : Decision (nonloop x) := _.

Lemma drop_loops_spec m s : ok4 m s ->
  exists s' out, for_range 0 m drop_loop_step (s, 0) = Some (s', out) /\ ok4 m s' /\ out <= m /\
    take out (tup s') = filter nonloop (tup s).
Proof.
  intros Hok.
  destruct (for_range_inv (fun i '(s', out) => ok4 m s' /\ out <= i /\ take out (tup s') = filter nonloop (take i (tup s)) /\
      drop i (tup s') = drop i (tup s)) drop_loop_step 0 m (s, 0)) as ([s' out] & Hr & Hok' & Hle & Ht & _).
  - lia.
  - rewrite !take_0. done.
  - intros i [s1 out] [_ Hi] (Hok1 & Hle & Ht & Hd). unfold drop_loop_step.
    destruct (tup_some m s1 i Hok1 Hi) as (t & h & w & d & Hx).
    pose proof Hx as (Htl & Hhd & _ & _)%tup_lookup. rewrite Htl, bind_S, Hhd, bind_S.
    assert (tup s !! i = Some ((t, h), (w, d))) as Hxs.
    { pose proof (lookup_drop (tup s1) i 0) as E1. pose proof (lookup_drop (tup s) i 0) as E2.
      rewrite Nat.add_0_r in E1, E2. rewrite <- E2, <- Hd, E1. done. }
    rewrite (take_S_r _ _ _ Hxs), filter_app, filter_cons, filter_nil.
    assert (forall l : list arc, drop (S i) l = drop 1 (drop i l)) as HdS. { intros l. by rewrite drop_drop, Nat.add_1_r. }
    destruct (decide (t = h)) as [->|Hne].
    + eexists. split; [done|]. split; [done|]. split; [lia|]. split; [|by rewrite !HdS, Hd].
      rewrite (decide_False (P := nonloop _)) by (intros []; done). by rewrite app_nil_r.
    + destruct (copy_arc_spec m s1 out i Hok1 Hi) as (s2 & x & Hc & Hok2 & Hx' & E); [lia|].
      rewrite Hc, bind_S. eexists. split; [done|]. split; [done|]. split; [lia|].
      rewrite (decide_True (P := nonloop _)) by done. rewrite Hx in Hx'. injection Hx' as <-.
      rewrite E. split.
      * rewrite (take_S_r _ _ ((t, h), (w, d))) by (apply list_lookup_insert; rewrite (tup_length m) by done; lia).
        rewrite take_insert by lia. by rewrite Ht.
      * rewrite drop_insert_gt by lia. by rewrite !HdS, Hd.
  - exists s', out. split; [done|]. split; [done|]. split; [done|]. rewrite Ht. by rewrite take_ge by (rewrite (tup_length m) by done; lia).
Qed.

(** ** Merging parallel arcs *)
Definition mrg (L : list arc) (x : arc) : list arc :=
  match list.last L with
  | Some y => if decide (key y = key x) then (if decide (wt x < wt y)%N then removelast L ++ [x] else L) else L ++ [x]
  | None => [x]
  end.

Lemma last_key A k x : A !! k = Some x -> exists L y, foldl mrg [] (take (S k) A) = L ++ [y] /\ key y = key x.
Proof.
  intros Hx. rewrite (take_S_r _ _ _ Hx), foldl_app. cbn. set (L := foldl mrg [] (take k A)).
  unfold mrg. destruct (list.last L) as [y|] eqn:EL; [|by exists [], x].
  apply last_Some in EL as [L' ->].
  destruct (decide (key y = key x)); [|by exists (L' ++ [y]), x].
  destruct (decide _); [|by exists L', y].
  exists (removelast (L' ++ [y])), x. done.
Qed.
Lemma removelast_snoc {A} (L : list A) x : removelast (L ++ [x]) = L.
Proof. apply removelast_last. Qed.

Lemma merge_spec m s n1 : ok4 m s -> 1 <= n1 <= m ->
  exists s' out, for_range 1 n1 merge_step (s, 1) = Some (s', out) /\ ok4 m s' /\ out <= n1 /\
    take out (tup s') = foldl mrg [] (take n1 (tup s)).
Proof.
  intros Hok Hn.
  destruct (for_range_inv (fun i '(s', out) => ok4 m s' /\ 1 <= out <= i /\ take out (tup s') = foldl mrg [] (take i (tup s)) /\
      (forall j, out <= j -> tup s' !! j = tup s !! j)) merge_step 1 n1 (s, 1)) as ([s' out] & Hr & Hok' & Hle & Ht & _).
  - lia.
  - split; [done|]. split; [lia|]. split; [|done].
    destruct (tup_some m s 0 Hok ltac:(lia)) as (t & h & w & d & Hx). by rewrite (take_S_r _ _ _ Hx), take_0.
  - intros i [s1 out] [Hi1 Hi] (Hok1 & Hle & Ht & Hd). unfold merge_step.
    destruct (tup_some m s1 i Hok1 ltac:(lia)) as (t & h & w & d & Hx).
    destruct (tup_some m s1 (i - 1) Hok1 ltac:(lia)) as (t0 & h0 & w0 & d0 & Hx0).
    pose proof Hx as (Htl & Hhd & Hw & Hid)%tup_lookup. pose proof Hx0 as (Htl0 & Hhd0 & _ & _)%tup_lookup.
    rewrite Htl0, bind_S, Htl, bind_S, Hhd0, bind_S, Hhd, bind_S.
    assert (tup s !! i = Some ((t, h), (w, d))) as Hxs by (rewrite <- Hd by lia; done).
    destruct (tup_some m s (i - 1) Hok ltac:(lia)) as (t1 & h1 & w1 & d1 & Hx1).
    destruct (last_key (tup s) (i - 1) _ Hx1) as (L & y & HL & Hy). replace (S (i - 1)) with i in HL by lia.
    rewrite HL in Ht.
    assert (length L = out - 1) as HLl.
    { apply (f_equal length) in Ht. rewrite take_length, app_length in Ht. rewrite (tup_length m) in Ht by done. cbn in Ht. lia. }
    assert (tup s1 !! (out - 1) = Some y) as Hy1.
    { rewrite <- (lookup_take _ out) by lia. rewrite Ht, lookup_app_r by lia. by rewrite HLl, Nat.sub_diag. }
    assert (key y = (t0, h0)) as Hkey.
    { destruct (decide (out = i)) as [->|].
      - rewrite Hx0 in Hy1. by injection Hy1 as <-.
      - rewrite Hd in Hx0 by lia. rewrite Hx1 in Hx0. rewrite Hy. by simplify_eq. }
    rewrite (take_S_r _ _ _ Hxs), foldl_app, HL. cbn [foldl]. unfold mrg. rewrite last_snoc.
    destruct (decide (t0 = t /\ h0 = h)) as [[-> ->]|Hne].
    + rewrite (decide_True (P := key y = _)) by done.
      rewrite Hw, bind_S. destruct y as [[ty hy] [wy dy]]. cbn in Hkey. injection Hkey as -> ->.
      pose proof Hy1 as (Hty & Hhy & Hwy & _)%tup_lookup. rewrite Hwy, bind_S. cbn [wt fst snd].
      destruct (decide (w < wy)%N) as [Hlt|Hge].
      * destruct Hok1 as (? & ? & ? & ?).
        rewrite (wr_Some (a_weight s1)) by lia. rewrite bind_S, Hid, bind_S. rewrite (wr_Some (a_id s1)) by lia. rewrite bind_S.
        eexists. split; [done|]. split; [by unfold ok4; cbn; rewrite !insert_length|]. split; [lia|].
        assert (tup (mkArcs4 (a_tail s1) (a_head s1) (<[out - 1 := w]> (a_weight s1)) (<[out - 1 := d]> (a_id s1))) =
          <[out - 1 := ((t, h), (w, d))]> (tup s1)) as E.
        { unfold tup. cbn. rewrite <- (list_insert_id (a_tail s1) (out - 1) t Hty) at 1.
          rewrite <- (list_insert_id (a_head s1) (out - 1) h Hhy) at 1. by rewrite !insert_zip_with. }
        rewrite E, removelast_snoc. split.
        -- replace out with (S (out - 1)) at 1 by lia.
           rewrite (take_S_r _ _ ((t, h), (w, d))) by (apply list_lookup_insert; rewrite (tup_length m) by done; lia).
           rewrite take_insert by lia. f_equal. rewrite <- HLl.
           apply (f_equal (take (length L))) in Ht. rewrite take_take, take_app in Ht. rewrite Nat.min_l in Ht by lia. done.
        -- intros j Hj. rewrite list_lookup_insert_ne by lia. by apply Hd.
      * eexists. split; [done|]. split; [done|]. split; [lia|]. split; [done|done].
    + rewrite (decide_False (P := key y = _)) by (rewrite Hkey; intros [=]; by apply Hne).
      destruct (copy_arc_spec m s1 out i Hok1) as (s2 & x & Hc & Hok2 & Hx' & E); [lia|lia|].
      rewrite Hc, bind_S. eexists. split; [done|]. split; [done|]. split; [lia|].
      rewrite Hx in Hx'. injection Hx' as <-. rewrite E. split.
      * rewrite (take_S_r _ _ ((t, h), (w, d))) by (apply list_lookup_insert; rewrite (tup_length m) by done; lia).
        rewrite take_insert by lia. by rewrite Ht.
      * intros j Hj. rewrite list_lookup_insert_ne by lia. apply Hd. lia.
  - exists s', out. split; [done|]. split; [done|]. split; [lia|]. done.
Qed.

(** ** What merging computes on sorted arcs *)
Definition klt (a b : nat * nat) : Prop := a.1 < b.1 \/ (a.1 = b.1 /\ a.2 < b.2).
Definition Rin (x y : arc) : Prop := klt (key x) (key y) \/ (key x = key y /\ aid x < aid y).
Lemma klt_trans a b c : klt a b -> klt b c -> klt a c.
Proof. unfold klt. lia. Qed.
Lemma klt_irrefl a : ~ klt a a.
Proof. unfold klt. lia. Qed.

Lemma SS_snoc {A} (R : A -> A -> Prop) l x : StronglySorted R (l ++ [x]) <-> StronglySorted R l /\ Forall (fun y => R y x) l.
Proof.
  induction l as [|y l IH]; cbn.
  - split; [split; constructor|intros _; repeat constructor].
  - rewrite Forall_cons. split.
    + intros H. inversion H as [|? ? HS HF]; simplify_eq. apply IH in HS as [? ?].
      apply Forall_app in HF as [HF [Hyx _]%Forall_cons]. split; [by constructor|]. done.
    + intros [H [Hyx HF]]. inversion H as [|? ? HS HF']; simplify_eq. constructor; [by apply IH|].
      apply Forall_app. split; [done|]. by repeat constructor.
Qed.
Lemma SS_filter {A} (R : A -> A -> Prop) (P : A -> Prop) `{forall x, Decision (P x)} l : StronglySorted R l -> StronglySorted R (filter P l).
Proof.
  induction 1 as [|x l HS IH HF]; [constructor|]. rewrite filter_cons. case_decide; [|done]. constructor; [done|].
  rewrite Forall_forall in *. intros y Hy%elem_of_list_filter. apply HF, Hy.
Qed.

Record merged (l L : list arc) : Prop := {
  mg_sorted : StronglySorted (fun x y => klt (key x) (key y)) L;
  mg_sound : forall y, y ∈ L -> y ∈ l /\ forall x, x ∈ l -> key x = key y -> (wt y < wt x)%N \/ (wt y = wt x /\ aid y <= aid x);
  mg_complete : forall x, x ∈ l -> exists y, y ∈ L /\ key y = key x;
  mg_last : forall l' x, l = l' ++ [x] -> exists L' y, L = L' ++ [y] /\ key y = key x }.

Lemma mrg_merged l : StronglySorted Rin l -> merged l (foldl mrg [] l).
Proof.
  induction l as [|x l IH] using rev_ind; intros HS.
  { split; [constructor|by intros ? ?%elem_of_nil|by intros ? ?%elem_of_nil|].
    intros l' x E. by apply app_cons_not_nil in E. }
  apply SS_snoc in HS as [HS HF]. destruct (IH HS) as [M1 M2 M3 M4]. clear IH. rewrite foldl_app. cbn [foldl].
  assert (forall z, z ∈ l -> Rin z x) as HFl by (by apply Forall_forall).
  destruct l as [|x0 l0 _] using rev_ind.
  { cbn. split; [repeat constructor|..].
    - intros y ->%elem_of_list_singleton. split; [by constructor|]. intros z ->%elem_of_list_singleton _. right. done.
    - intros y ->%elem_of_list_singleton. exists x. split; [constructor|done].
    - intros [|? [|??]] z E; cbn in E; simplify_eq. by exists [], z. }
  destruct (M4 l0 x0 eq_refl) as (L' & y & EL & Hy). rewrite EL in *. clear M4.
  set (l := l0 ++ [x0]) in *. unfold mrg. rewrite last_snoc.
  apply SS_snoc in M1 as [M1 M1'].
  assert (y ∈ l /\ forall x, x ∈ l -> key x = key y -> (wt y < wt x)%N \/ (wt y = wt x /\ aid y <= aid x)) as [Hyl Hymin].
  { apply M2. set_solver. }
  destruct (decide (key y = key x)) as [Ek|Nk].
  - assert (forall z, z ∈ l -> key z = key x -> aid z < aid x) as Hid.
    { intros z Hz E. destruct (HFl z Hz) as [H|[_ H]]; [|done]. rewrite E in H. by apply klt_irrefl in H. }
    destruct (decide (wt x < wt y)%N) as [Hlt|Hge].
    + rewrite removelast_snoc. split.
      * apply SS_snoc. split; [done|]. eapply Forall_impl; [exact M1'|]. intros z Hz. by rewrite <- Ek.
      * intros z [Hz| ->%elem_of_list_singleton]%elem_of_app.
        -- assert (z ∈ L' ++ [y]) as Hz' by set_solver. destruct (M2 z Hz') as [Hzl Hmin]. split; [set_solver|].
           intros u [Hu| ->%elem_of_list_singleton]%elem_of_app Eu; [by apply Hmin|].
           rewrite Forall_forall in M1'. specialize (M1' _ Hz). cbn in M1'. rewrite <- Eu, Ek in M1'. by apply klt_irrefl in M1'.
        -- split; [set_solver|]. intros u [Hu| ->%elem_of_list_singleton]%elem_of_app Eu; [|right; done].
           left. destruct (Hymin u Hu) as [?|[? _]]; [congruence|lia|lia].
      * intros z [Hz| ->%elem_of_list_singleton]%elem_of_app; [|exists x; split; [set_solver|done]].
        destruct (M3 z Hz) as (u & [Hu| ->%elem_of_list_singleton]%elem_of_app & Eu); [exists u; split; [set_solver|done]|].
        exists x. split; [set_solver|congruence].
      * intros l' z [_ [= ->]]%app_inj_2; [|done]. by exists L', z.
    + split.
      * apply SS_snoc. split; done.
      * intros z Hz. destruct (M2 z Hz) as [Hzl Hmin]. split; [set_solver|].
        intros u [Hu| ->%elem_of_list_singleton]%elem_of_app Eu; [by apply Hmin|].
        assert ((wt z < wt y)%N \/ (wt z = wt y /\ aid z <= aid y)) as Hzy by (apply Hmin; [done|congruence]).
        pose proof (Hid y Hyl Ek). lia.
      * intros z [Hz| ->%elem_of_list_singleton]%elem_of_app; [by apply M3|]. exists y. split; [set_solver|done].
      * intros l' z [_ [= ->]]%app_inj_2; [|done]. by exists L', y.
  - assert (forall z, z ∈ L' ++ [y] -> klt (key z) (key x)) as Hall.
    { assert (klt (key y) (key x)) as Hyx. { destruct (HFl y Hyl) as [?|[? _]]; done. }
      intros z [Hz| ->%elem_of_list_singleton]%elem_of_app; [|done]. rewrite Forall_forall in M1'.
      eapply klt_trans; [apply (M1' _ Hz)|done]. }
    assert (forall z, z ∈ l -> key z <> key x) as Hnk.
    { intros z Hz E. destruct (M3 z Hz) as (u & Hu & Eu). specialize (Hall u Hu). rewrite Eu, E in Hall. by apply klt_irrefl in Hall. }
    split.
    + apply SS_snoc. split; [by apply SS_snoc|]. by apply Forall_forall.
    + intros z [Hz| ->%elem_of_list_singleton]%elem_of_app.
      * destruct (M2 z Hz) as [Hzl Hmin]. split; [set_solver|].
        intros u [Hu| ->%elem_of_list_singleton]%elem_of_app Eu; [by apply Hmin|]. by destruct (Hnk z Hzl).
      * split; [set_solver|]. intros u [Hu| ->%elem_of_list_singleton]%elem_of_app Eu; [by destruct (Hnk u Hu)|right; done].
    + intros z [Hz| ->%elem_of_list_singleton]%elem_of_app.
      * destruct (M3 z Hz) as (u & Hu & Eu). exists u. split; [set_solver|done].
      * exists x. split; [set_solver|done].
    + intros l' z [_ [= ->]]%app_inj_2; [|done]. by exists (L' ++ [y]), z.
Qed.

(** ** The whole function *)
Lemma lookup_SS_lookup {A} (R : A -> A -> Prop) l :
  (forall i j x y, i < j -> l !! i = Some x -> l !! j = Some y -> R x y) -> StronglySorted R l.
Proof.
  induction l as [|x l IH]; intros H; constructor.
  - apply IH. intros i j a b Hij Hi Hj. apply (H (S i) (S j)); [lia|done|done].
  - apply Forall_forall. intros y [i Hi]%elem_of_list_lookup_1. by apply (H 0 (S i)); [lia|..].
Qed.

Lemma permuted_inverse {T} `{Inhabited T} r ri (v v' : list T) :
  inverse_of r ri -> permuted_by ri v' v -> length v' = length v -> length v = length r -> permuted_by r v v'.
Proof.
  intros [Hl Hi] [Hl' Hp] E1 E2. split; [lia|]. intros i x Hx. apply Hi in Hx as Hx'. by rewrite (Hp x i Hx').
Qed.

Theorem clean_arcs_correct asserts n tail head w : arc_list n tail head w ->
  exists s, clean_arcs asserts n tail head w = Some s /\
    cleaned tail head w (a_tail s) (a_head s) (a_weight s) (a_id s).
Proof.
  intros (Hlt & Hlw & HFt & HFh). unfold clean_arcs. rewrite identity_permutation_correct, bind_S.
  set (m := length head) in *. unfold sort_arcs_and_remove_multi_and_loop_arcs. cbn [a_tail a_head a_weight a_id].
  destruct (compute_inverse_sort_permutation_lex_apply_correct asserts n tail n head) as (r & ri & tail' & Hc & Hlex & Hinv & Htl & Hsort);
    [lia|by apply Forall_forall|by apply Forall_forall|].
  unfold compute_inverse_sort_permutation_first_by_tail_then_by_head_and_apply_sort_to_tail. rewrite Hc, bind_S. cbv beta iota.
  destruct Hlex as [Hrp Hlex].
  assert (length r = m) as Hlr by (rewrite Hrp, seq_length; lia).
  assert (perm r) as Hpr. { unfold perm. by rewrite Hlr, Hrp, Hlt. }
  assert (perm ri) as Hpri by (by eapply inverse_of_perm).
  assert (length ri = m) as Hlri by (destruct Hinv; lia).
  destruct (apply_inverse_permutation_correct ri head) as (hd & Hhd & Hhdl & Hhdp); [done|lia|].
  destruct (apply_inverse_permutation_correct ri w) as (ws & Hws & Hwsl & Hwsp); [done|lia|].
  destruct (apply_inverse_permutation_correct ri (seq 0 m)) as (is & His & Hisl & Hisp); [done|by rewrite seq_length|].
  rewrite Hhd, bind_S, Hws, bind_S, His, bind_S.
  apply (permuted_inverse r ri) in Hhdp; [|done|lia|lia].
  apply (permuted_inverse r ri) in Hwsp; [|done|lia|lia].
  rewrite seq_length in Hisl. apply (permuted_inverse r ri) in Hisp; [|done|by rewrite seq_length|by rewrite seq_length].
  set (s := mkArcs4 tail' hd ws is).
  assert (ok4 m s) as Hok. { unfold ok4, s. cbn. destruct Htl as [? _]. lia. }
  assert (forall i t h x e, tup s !! i = Some ((t, h), (x, e)) -> r !! i = Some e /\ is_arc tail head w e t h x) as Htup.
  { intros i t h x e (H1 & H2 & H3 & H4)%tup_lookup. unfold s in *. cbn in *.
    destruct (lookup_lt_is_Some_2 r i) as [j Hj]; [apply lookup_lt_Some in H2; lia|].
    rewrite (proj2 Htl i j Hj) in H1. rewrite (proj2 Hhdp i j Hj) in H2. rewrite (proj2 Hwsp i j Hj) in H3.
    rewrite (proj2 Hisp i j Hj) in H4. apply lookup_seq in H4 as [-> _]. done. }
  assert (StronglySorted Rin (tup s)) as HSS.
  { apply lookup_SS_lookup. intros i j [[t h] [x e]] [[t' h'] [x' e']] Hij Hi Hj.
    apply Htup in Hi as (Hri & Hi1 & Hi2 & _). apply Htup in Hj as (Hrj & Hj1 & Hj2 & _).
    pose proof (Hlex i j e e' t h t' h' Hij Hri Hrj Hi1 Hj1 Hi2 Hj2) as Hcmp.
    unfold Rin, klt. cbn. destruct Hcmp as [?|[-> [?|[-> ?]]]]; [left; left; done|left; right; done|right; done]. }
  assert (forall e t h x, is_arc tail head w e t h x -> ((t, h), (x, e)) ∈ tup s) as Htup'.
  { intros e t h x (H1 & H2 & H3). destruct (perm_surj r e Hpr) as [i Hi]; [rewrite Hlr; apply lookup_lt_Some in H2; done|].
    apply (elem_of_list_lookup_2 _ i). apply tup_lookup. unfold s. cbn.
    rewrite (proj2 Htl i e Hi), (proj2 Hhdp i e Hi), (proj2 Hwsp i e Hi), (proj2 Hisp i e Hi).
    rewrite lookup_seq_lt by (apply lookup_lt_Some in H2; done). done. }
  change (length (a_head s)) with (length hd). rewrite Hhdl.
  (* the two loops *)
  set (A := filter nonloop (tup s)).
  assert (exists s1 n1, (if decide (m = 0) then Some (s, m) else for_range 0 m drop_loop_step (s, 0)) = Some (s1, n1) /\
    ok4 m s1 /\ n1 <= m /\ take n1 (tup s1) = A) as (s1 & n1 & E1 & Hok1 & Hn1 & HA).
  { destruct (decide (m = 0)) as [Hm|_]; [|by apply drop_loops_spec]. exists s, m. split; [done|]. split; [done|]. split; [done|].
    unfold A. assert (tup s = []) as ->. { apply nil_length_inv. rewrite (tup_length m); done. } by rewrite Hm. }
  fold m. rewrite E1, bind_S. cbv beta iota.
  assert (exists s2 n2, (if decide (n1 = 0) then Some (s1, n1) else for_range 1 n1 merge_step (s1, 1)) = Some (s2, n2) /\
    ok4 m s2 /\ n2 <= m /\ take n2 (tup s2) = foldl mrg [] A) as (s2 & n2 & E2 & Hok2 & Hn2 & HB).
  { destruct (decide (n1 = 0)) as [Hz|Hnz].
    - exists s1, n1. split; [done|]. split; [done|]. split; [done|]. subst n1. rewrite take_0 in HA. by rewrite <- HA.
    - destruct (merge_spec m s1 n1 Hok1) as (s2 & n2 & H1 & H2 & H3 & H4); [lia|]. exists s2, n2. rewrite HA in H4.
      split; [done|]. split; [done|]. split; [lia|done]. }
  rewrite E2, bind_S. cbv beta iota. eexists. split; [done|]. cbn [a_tail a_head a_weight a_id].
  assert (merged A (foldl mrg [] A)) as M. { apply mrg_merged. by apply SS_filter. }
  set (s3 := mkArcs4 (take n2 (a_tail s2)) (take n2 (a_head s2)) (take n2 (a_weight s2)) (take n2 (a_id s2))).
  assert (ok4 n2 s3) as Hok3. { destruct Hok2 as (?&?&?&?). unfold ok4, s3. cbn. rewrite !take_length. lia. }
  assert (tup s3 = foldl mrg [] A) as HB3.
  { rewrite <- HB. unfold tup, s3. cbn. by rewrite !zip_with_take. }
  change (cleaned tail head w (a_tail s3) (a_head s3) (a_weight s3) (a_id s3)).
  destruct M as [M1 M2 M3 _]. rewrite <- HB3 in M1, M2, M3. clear E2 HB HB3.
  assert (forall x, x ∈ A -> nonloop x /\ exists t h c e, x = ((t, h), (c, e)) /\ is_arc tail head w e t h c) as HinA.
  { intros [[t h] [c e]] [Hn Hin]%elem_of_list_filter. split; [done|].
    apply elem_of_list_lookup_1 in Hin as [i Hi]. apply Htup in Hi as [_ Hi]. by exists t, h, c, e. }
  split.
  - destruct Hok3 as (?&?&?&?). lia.
  - intros i j u v x y Hij H1 H2 H3 H4.
    destruct (tup_some n2 s3 i Hok3) as (t & h & c & e & Hi). { apply lookup_lt_Some in H1. destruct Hok3; lia. }
    destruct (tup_some n2 s3 j Hok3) as (t' & h' & c' & e' & Hj). { apply lookup_lt_Some in H3. destruct Hok3; lia. }
    pose proof (StronglySorted_lookup _ _ i j _ _ M1 Hij Hi Hj) as HR.
    apply tup_lookup in Hi as (G1 & G2 & _ & _). apply tup_lookup in Hj as (G3 & G4 & _ & _).
    rewrite H1 in G1. rewrite H2 in G2. rewrite H3 in G3. rewrite H4 in G4. simplify_eq. exact HR.
  - intros i u v x e (H1 & H2 & H3) H4.
    assert (((u, v), (x, e)) ∈ tup s3) as Hin. { apply (elem_of_list_lookup_2 _ i). by apply tup_lookup. }
    apply M2 in Hin as [HA' Hmin]. destruct (HinA _ HA') as (Hnl & t & h & c & e0 & E & Harc). simplify_eq.
    split; [exact Hnl|]. split; [done|]. intros e' x' Harc'.
    apply (Hmin ((t, h), (x', e'))); [|done]. apply elem_of_list_filter. split; [exact Hnl|]. by apply Htup'.
  - intros e u v x Harc Hne.
    destruct (M3 ((u, v), (x, e))) as ([[t h] [c e']] & Hy & Ey). { apply elem_of_list_filter. split; [exact Hne|]. by apply Htup'. }
    cbn in Ey. injection Ey as -> ->. apply elem_of_list_lookup_1 in Hy as [i Hi]. apply tup_lookup in Hi as (?&?&?&_). by exists i, c.
Qed.

(** ** Walks *)
Lemma cleaned_sub tail head w tail' head' w' ids : cleaned tail head w tail' head' w' ids ->
  forall u v x, arcs_of tail' head' w' u v x -> arcs_of tail head w u v x /\ u <> v.
Proof.
  intros C u v x (i & H1 & H2 & H3). destruct (lookup_lt_is_Some_2 ids i) as [e He].
  { apply lookup_lt_Some in H2. destruct (cl_len _ _ _ _ _ _ _ C) as (?&?&?). lia. }
  destruct (cl_sound _ _ _ _ _ _ _ C i u v x e) as (Hne & Harc & _); [done..|]. split; [|done]. by exists e.
Qed.
Lemma cleaned_arc tail head w tail' head' w' ids : cleaned tail head w tail' head' w' ids ->
  forall u v x, arcs_of tail head w u v x -> u <> v -> exists x', (x' <= x)%N /\ arcs_of tail' head' w' u v x'.
Proof.
  intros C u v x (e & He) Hne. destruct (cl_complete _ _ _ _ _ _ _ C e u v x He Hne) as (i & x' & Hi).
  exists x'. split; [|by exists i].
  destruct (lookup_lt_is_Some_2 ids i) as [e' He'].
  { destruct Hi as (_ & H2 & _). apply lookup_lt_Some in H2. destruct (cl_len _ _ _ _ _ _ _ C) as (?&?&?). lia. }
  destruct (cl_sound _ _ _ _ _ _ _ C i u v x' e') as (_ & _ & Hmin); [done..|]. destruct (Hmin e x He) as [?|[-> _]]; lia.
Qed.
Lemma cleaned_walk tail head w tail' head' w' ids : cleaned tail head w tail' head' w' ids -> forall u v,
  (forall L, dist_walk (arcs_of tail' head' w') u v L -> dist_walk (arcs_of tail head w) u v L) /\
  (forall L, dist_walk (arcs_of tail head w) u v L -> exists L', (L' <= L)%N /\ dist_walk (arcs_of tail' head' w') u v L').
Proof.
  intros C u v. split.
  - intros L [?|(k & H)]; [by left|right]. exists k. eapply gw_sub; [|exact H]. intros. by apply (cleaned_sub _ _ _ _ _ _ _ C).
  - intros L [[-> ->]|(k & H)]; [exists 0%N; split; [lia|by left]|].
    induction H as [u v x Hx|u y v x L k Hx _ H (L' & HL & IH)].
    + destruct (decide (u = v)) as [->|Hne]; [exists 0%N; split; [lia|by left]|].
      destruct (cleaned_arc _ _ _ _ _ _ _ C u v x Hx Hne) as (x' & ? & ?). exists x'. split; [done|]. right. exists 1. by constructor.
    + destruct (decide (u = y)) as [->|Hne]; [exists L'; split; [lia|done]|].
      destruct (cleaned_arc _ _ _ _ _ _ _ C u y x Hx Hne) as (x' & ? & ?). exists (x' + L')%N. split; [lia|]. right.
      destruct IH as [[-> ->]|(k' & IH)].
      * exists 1. rewrite N.add_0_r. by constructor.
      * exists (S k'). by econstructor.
Qed.
