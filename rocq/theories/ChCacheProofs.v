(** The order optimised for the cache still puts every node before the heads of its arcs. *)
From Verif Require Import Base UtilSpec GraphSpec PermutationModel PermutationProofs IdQueueModel IdQueueSpec IdQueueProofs ChBuildModel.
Ltac Zify.zify_post_hook ::= idtac.

Lemma clear_heads_spec n (heads : list nat) : forall l : list bool, length l = n -> (forall y, y ∈ heads -> y < n) ->
  exists l', for_each heads (fun y l => wr l y false) l = Some l' /\ length l' = n /\
    forall y, l' !! y = Some true <-> l !! y = Some true /\ y ∉ heads.
Proof.
  induction heads as [|h heads IH]; intros l Hl Hlt; cbn.
  - exists l. split; [done|]. split; [done|]. intros y. split; [|tauto]. intros. split; [done|apply not_elem_of_nil].
  - rewrite wr_Some, bind_S by (rewrite Hl; apply Hlt; by left).
    destruct (IH (<[h:=false]> l)) as (l' & -> & Hl' & H); [by rewrite insert_length|intros; apply Hlt; by right|].
    exists l'. split; [done|]. split; [done|]. intros y. rewrite H, list_lookup_insert_Some, not_elem_of_cons.
    split; [intros [[(_ & ? & _)|[? ?]] ?]; [done|]; split; [done|]; split; [congruence|done]|].
    intros (? & ? & ?). split; [|done]. right. split; [congruence|done].
Qed.

Section cache.
  Variables (n : nat) (rank ffo fhead bfo bhead : list nat).
  Hypothesis Hlen : length rank = n.
  Hypothesis Hperm : perm rank.
  Hypothesis Hf : csr n ffo fhead.
  Hypothesis Hb : csr n bfo bhead.
  Definition cup (x y : nat) : Prop := (exists e, arc_from_to ffo fhead x y e) \/ (exists e, arc_from_to bfo bhead x y e).
  Hypothesis Hup : forall x y, cup x y -> exists i j, rank !! x = Some i /\ rank !! y = Some j /\ i < j.

  Definition rk (x : nat) : nat := default 0 (rank !! x).
  Lemma rk_lookup x : x < n -> rank !! x = Some (rk x).
  Proof. intros H. unfold rk. destruct (lookup_lt_is_Some_2 rank x) as [k ->]; [by rewrite Hlen|done]. Qed.
  Lemma rk_inj x y : x < n -> y < n -> rk x = rk y -> x = y.
  Proof. intros Hx Hy E. eapply (perm_inj rank); [done|by apply rk_lookup|rewrite E; by apply rk_lookup]. Qed.
  Lemma cup_lt x y : cup x y -> x < n /\ y < n.
  Proof.
    intros [(e & Ho & Hh)|(e & Ho & Hh)].
    - split; [by eapply out_arc_lt in Ho as [? ?]|]. eapply csr_head; [exact Hf|]. by eapply elem_of_list_lookup_2.
    - split; [by eapply out_arc_lt in Ho as [? ?]|]. eapply csr_head; [exact Hb|]. by eapply elem_of_list_lookup_2.
  Qed.
  Lemma cup_rk x y : cup x y -> rk x < rk y.
  Proof. intros H. destruct (Hup _ _ H) as (i & j & Hi & Hj & Hij). unfold rk. by rewrite Hi, Hj. Qed.

  (** every node of [l] is followed by the heads of its arcs *)
  Definition topo (l : list nat) : Prop := forall i x y, l !! i = Some x -> cup x y -> exists j, i < j /\ l !! j = Some y.

  (** The nodes with a flag are those of [dn] and those in the queue. *)
  Record vq (dn : list nat) (q : queue) (is : list bool) (m : gmap nat N) : Prop := {
    vq_q : qref n q m;
    vq_key : forall y k, m !! y = Some k -> y < n /\ k = N.of_nat (rk y);
    vq_len : length is = n;
    vq_is : forall y, is !! y = Some true <-> (y ∈ dn \/ y ∈ dom m) /\ y < n;
    vq_disj : forall y, y ∈ dn -> y ∉ dom m }.

  Variable bottom : list bool.
  Hypothesis Hbl : length bottom = n.
  Hypothesis Hsrc0 : forall y, bottom !! y = Some false -> exists x, cup x y.
  Hypothesis Hbt : forall y, bottom !! y = Some true <-> y < n /\ forall x, ~ cup x y.

  Lemma bottom_head x y : cup x y -> bottom !! y = Some false.
  Proof.
    intros H. destruct (cup_lt _ _ H) as [_ Hy]. destruct (lookup_lt_is_Some_2 bottom y) as [b Hb']; [by rewrite Hbl|]. rewrite Hb'.
    destruct b; [|done]. apply Hbt in Hb' as [_ Hn]. by destruct (Hn x).
  Qed.

  Lemma on_node_spec dn x y q is m :
    vq dn q is m -> cup x y -> exists q' is' m', on_node rank bottom y (q, is) = Some (q', is') /\ vq dn q' is' m' /\
      (y ∈ dn \/ y ∈ dom m') /\ dom m ⊆ dom m' /\ (forall z, z ∈ dom m' -> z ∈ dom m \/ z = y).
  Proof.
    intros [Hq Hk Hl Hi Hd] Hc. destruct (cup_lt _ _ Hc) as [_ Hy]. unfold on_node. rewrite (bottom_head _ _ Hc), bind_S. cbn [negb chk]. rewrite bind_S.
    destruct (lookup_lt_is_Some_2 is y) as [b Hby]; [lia|]. rewrite Hby, bind_S. destruct b.
    - exists q, is, m. split; [done|]. split; [done|]. split; [by apply Hi|]. split; [done|]. auto.
    - rewrite wr_Some, bind_S by lia. rewrite rk_lookup, bind_S by done.
      assert (~ (y ∈ dn \/ y ∈ dom m)) as Hn. { intros H. assert (is !! y = Some true) by (by apply Hi). congruence. }
      destruct (push_spec n q m y (N.of_nat (rk y)) Hq Hy) as (q' & -> & Hq').
      { apply not_elem_of_dom. tauto. }
      rewrite bind_S. eexists q', (<[y:=true]> is), (<[y:=N.of_nat (rk y)]> m). split; [done|]. split; [|rewrite dom_insert_L; set_solver].
      split; [done| |by rewrite insert_length| |].
      + intros z k [[<- <-]|[? ?]]%lookup_insert_Some; [done|]. auto.
      + intros z. rewrite list_lookup_insert_Some, Hi, dom_insert_L, elem_of_union, elem_of_singleton.
        destruct (decide (z = y)) as [->|]; [|naive_solver]. split; [|intros; left; split; [done|]; split; [done|lia]].
        intros _. split; [right; by left|done].
      + intros z Hz. rewrite dom_insert_L, not_elem_of_union, not_elem_of_singleton. split; [intros ->; tauto|]. by apply Hd.
  Qed.

  Lemma visit_side_spec dn fo head x q is m :
    csr n fo head -> (forall e y, arc_from_to fo head x y e -> cup x y) -> x < n -> vq dn q is m ->
    exists q' is' m', visit_side rank bottom fo head x (q, is) = Some (q', is') /\ vq dn q' is' m' /\
      (forall e y, arc_from_to fo head x y e -> y ∈ dn \/ y ∈ dom m') /\ dom m ⊆ dom m' /\ (forall z, z ∈ dom m' -> z ∈ dom m \/ cup x z).
  Proof.
    intros Hc Hcup Hx Hv. unfold visit_side. destruct (csr_range _ _ _ x Hc Hx) as (lo & hi & Hlo & Hhi & Hle).
    rewrite Hlo, bind_S, Hhi, bind_S.
    match goal with |- context [for_range lo hi ?b _] => set (body := b) end.
    destruct (for_range_inv (fun e '(q, is) => exists m', vq dn q is m' /\ (forall e' y, lo <= e' < e -> head !! e' = Some y -> y ∈ dn \/ y ∈ dom m') /\
       dom m ⊆ dom m' /\ (forall z, z ∈ dom m' -> z ∈ dom m \/ cup x z)) body lo hi (q, is)) as ([q' is'] & -> & m' & Hv' & H1 & H2 & H3).
    - lia.
    - exists m. split; [done|]. split; [lia|]. split; [done|]. auto.
    - intros e [q1 is1] He (m1 & Hv1 & H1 & H2 & H3). unfold body. destruct (lookup_lt_is_Some_2 head e) as [y Hy]; [lia|]. rewrite Hy, bind_S.
      assert (cup x y) as Hxy. { apply (Hcup e). split; [|done]. by exists lo, hi. }
      destruct (on_node_spec dn x y q1 is1 m1 Hv1 Hxy) as (q2 & is2 & m2 & -> & Hv2 & G1 & G2 & G3).
      eexists. split; [done|]. cbv beta iota. exists m2. split; [done|]. split; [|split].
      + intros e' y' He' Hy'. destruct (decide (e' = e)) as [->|]; [rewrite Hy in Hy'; by injection Hy' as <-|].
        destruct (H1 e' y') as [?|?]; [lia|done|by left|right]. set_solver.
      + set_solver.
      + intros z Hz. destruct (G3 z Hz) as [Hz1| ->]; [auto|]. by right.
    - exists q', is', m'. split; [done|]. split; [done|]. split; [|done]. intros e y [(lo' & hi' & E1 & E2 & He) Hy].
      rewrite Hlo in E1. rewrite Hhi in E2. injection E1 as <-. injection E2 as <-. by eapply H1.
  Qed.

  Lemma bounded_len (l : list nat) : NoDup l -> (forall x, x ∈ l -> x < n) -> length l <= n.
  Proof.
    intros Hnd Hl. rewrite <- (seq_length n 0). apply submseteq_length, NoDup_submseteq; [done|]. intros x Hx. apply elem_of_seq. specialize (Hl _ Hx). lia.
  Qed.
  Lemma drop_write {A} (l : list A) k x : k < length l -> drop k (<[k:=x]> l) = x :: drop (S k) l.
  Proof.
    intros H. rewrite (drop_S _ x) by (by rewrite list_lookup_insert). f_equal. by rewrite drop_insert_gt by lia.
  Qed.

  (** One search space, from [r]: [placed] holds the nodes popped so far, [rest] those of earlier searches. *)
  Lemma visit_chunk_spec r rest : topo rest -> (forall x, x ∈ rest -> x < n) -> NoDup rest -> forall fuel placed q is no oe m,
    vq (placed ++ rest) q is m -> NoDup (placed ++ rest) -> (forall x, x ∈ placed -> x < n) ->
    length no = n -> oe <= n -> drop oe no = rev placed ++ rest -> oe <= fuel ->
    StronglySorted (fun x y => rk x < rk y) placed -> (forall x y, x ∈ placed -> y ∈ dom m -> rk x <= rk y) ->
    (forall x y, x ∈ placed -> cup x y -> y ∈ placed ++ rest \/ y ∈ dom m) ->
    (forall x, x ∈ placed \/ x ∈ dom m -> x = r \/ exists z, cup z x) ->
    exists q' is' no' oe' placed', visit_chunk rank bottom ffo fhead bfo bhead fuel (q, is, no, oe) = Some (q', is', no', oe') /\
      vq (placed' ++ rest) q' is' ∅ /\ NoDup (placed' ++ rest) /\ (forall x, x ∈ placed' -> x < n) /\
      length no' = n /\ oe' <= n /\ drop oe' no' = rev placed' ++ rest /\
      StronglySorted (fun x y => rk x < rk y) placed' /\
      (forall x y, x ∈ placed' -> cup x y -> y ∈ placed' ++ rest) /\
      (forall x, x ∈ placed' -> x = r \/ exists z, cup z x) /\
      (forall x, x ∈ placed \/ x ∈ dom m -> x ∈ placed').
  Proof.
    intros Htopo Hrl Hrn. assert (forall x y, cup x y -> x ∈ rest -> y ∈ rest) as Hclosed.
    { intros x y Hxy [i Hi]%elem_of_list_lookup. destruct (Htopo i x y Hi Hxy) as (j & _ & Hj). by eapply elem_of_list_lookup_2. }
    induction fuel as [|fuel IH]; intros placed q is no oe m Hv Hnd Hpl Hno Hoe Hdr Hfu Hso Hle Hcl Hsrc; cbn [visit_chunk];
      rewrite (q_empty_spec n q m) by apply Hv; (destruct (bool_decide (m = ∅)) eqn:Em;
        [apply bool_decide_eq_true in Em as ->|apply bool_decide_eq_false in Em]).
    1,3: exists q, is, no, oe, placed; split; [done|]; split; [done|]; split; [done|]; split; [done|]; split; [done|]; split; [done|]; split; [done|];
      split; [done|]; split; [intros x y Hx Hxy; destruct (Hcl x y Hx Hxy) as [?|Hy]; [done|by rewrite dom_empty_L in Hy]|];
      split; [intros; apply Hsrc; by left|]; intros x [?|Hx]; [done|]; by rewrite dom_empty_L in Hx.
    all: destruct (pop_spec n q m) as (x & k & q1 & Hpop & [Hxm Hmin] & Hq1); [apply Hv|done|].
    all: destruct (vq_key _ _ _ _ Hv x k Hxm) as [Hxn ->].
    all: assert (x ∈ dom m) as Hxd by (by eapply elem_of_dom_2).
    all: assert (x ∉ placed ++ rest) as Hxp by (intros Hx; by apply (vq_disj _ _ _ _ Hv x Hx)).
    all: assert (0 < oe) as Hpos by
      (assert (length (x :: placed ++ rest) <= n) as Hln by
         (apply bounded_len; [by apply NoDup_cons|]; intros y [->|[?|?]%elem_of_app]%elem_of_cons; auto);
       assert (length (drop oe no) = length (placed ++ rest)) as Hld by (rewrite Hdr, !app_length, rev_length; done);
       rewrite drop_length in Hld; cbn in Hln; lia).
    { lia. }
    rewrite Hpop, bind_S. rewrite bool_decide_eq_true_2 by done. cbn [chk]. rewrite bind_S. rewrite wr_Some, bind_S by lia.
    set (no1 := <[oe - 1:=x]> no).
    assert (vq ((placed ++ [x]) ++ rest) q1 is (delete x m)) as Hv1.
    { split.
      - done.
      - intros y k [? ?]%lookup_delete_Some. by apply (vq_key _ _ _ _ Hv).
      - apply Hv.
      - intros y. rewrite (vq_is _ _ _ _ Hv), dom_delete_L. rewrite !elem_of_app, elem_of_list_singleton, elem_of_difference, elem_of_singleton.
        destruct (decide (y = x)) as [->|]; tauto.
      - intros y. rewrite dom_delete_L, !elem_of_app, elem_of_list_singleton, elem_of_difference, elem_of_singleton. intros [[Hy| ->]|Hy] [H1 H2].
        + by apply (vq_disj _ _ _ _ Hv y); [apply elem_of_app; left|].
        + done.
        + by apply (vq_disj _ _ _ _ Hv y); [apply elem_of_app; right|]. }
    destruct (visit_side_spec ((placed ++ [x]) ++ rest) ffo fhead x q1 is (delete x m)) as (q2 & is2 & m2 & -> & Hv2 & A1 & A2 & A3); [done| |done|done|].
    { intros e y He. left. by exists e. }
    rewrite bind_S.
    destruct (visit_side_spec ((placed ++ [x]) ++ rest) bfo bhead x q2 is2 m2) as (q3 & is3 & m3 & -> & Hv3 & B1 & B2 & B3); [done| |done|done|].
    { intros e y He. right. by exists e. }
    rewrite bind_S.
    assert (forall z, z ∈ dom m3 -> (z ∈ dom m /\ z <> x) \/ cup x z) as Hm3.
    { intros z Hz. destruct (B3 z Hz) as [Hz2|?]; [|by right]. destruct (A3 z Hz2) as [Hz1|?]; [|by right]. rewrite dom_delete_L in Hz1. left. set_solver. }
    assert (dom m ∖ {[x]} ⊆ dom m3) as Hsub by (rewrite dom_delete_L in A2; set_solver).
    assert (forall y, cup x y -> y ∈ (placed ++ [x]) ++ rest \/ y ∈ dom m3) as Hcx.
    { intros y [(e & He)|(e & He)].
      - destruct (A1 e y He) as [?|?]; [by left|right; set_solver].
      - by eapply B1. }
    assert (forall y, y ∈ dom m -> y <> x -> rk x <= rk y) as Hxmin.
    { intros y [k Hk]%elem_of_dom _. pose proof (Hmin _ _ Hk). destruct (vq_key _ _ _ _ Hv y k Hk) as [_ ->]. lia. }
    assert (forall y, y ∈ placed -> rk y < rk x) as Hpx.
    { intros y Hy. pose proof (Hle y x Hy Hxd). assert (rk y <> rk x); [|lia]. intros E. apply rk_inj in E as ->; [|by apply Hpl|done]. apply Hxp, elem_of_app. by left. }
    destruct (IH (placed ++ [x]) q3 is3 no1 (oe - 1) m3) as (q' & is' & no' & oe' & placed' & -> & Hr).
    - done.
    - rewrite <- app_assoc. cbn. apply NoDup_app in Hnd as (N1 & N2 & N3). apply NoDup_app. split; [done|]. split.
      + intros y Hy [->|Hy']%elem_of_cons; [apply Hxp, elem_of_app; by left|]. by apply (N2 y).
      + apply NoDup_cons. split; [|done]. intros Hx. apply Hxp, elem_of_app. by right.
    - intros y [?| ->%elem_of_list_singleton]%elem_of_app; auto.
    - unfold no1. by rewrite insert_length.
    - lia.
    - unfold no1. rewrite drop_write by lia. replace (S (oe - 1)) with oe by lia. rewrite Hdr, rev_app_distr. done.
    - lia.
    - clear -Hso Hpx. induction placed as [|y placed IHp]; cbn; [repeat constructor|]. apply StronglySorted_inv in Hso as [S1 S2]. constructor.
      + apply IHp; [done|]. intros z Hz. apply Hpx. by right.
      + apply Forall_app. split; [done|]. constructor; [|constructor]. apply Hpx. by left.
    - intros y z [Hy| ->%elem_of_list_singleton]%elem_of_app Hz.
      + destruct (Hm3 z Hz) as [[Hz1 _]|Hxz]; [by apply Hle|]. pose proof (Hpx y Hy). pose proof (cup_rk _ _ Hxz). lia.
      + destruct (Hm3 z Hz) as [[Hz1 Hzx]|Hxz]; [by apply Hxmin|]. pose proof (cup_rk _ _ Hxz). lia.
    - intros y z [Hy| ->%elem_of_list_singleton]%elem_of_app Hyz; [|by apply Hcx].
      destruct (Hcl y z Hy Hyz) as [[Hz|Hz]%elem_of_app|Hz].
      + left. rewrite !elem_of_app. tauto.
      + left. rewrite !elem_of_app. tauto.
      + destruct (decide (z = x)) as [->|]; [left; rewrite !elem_of_app, elem_of_list_singleton; tauto|right; set_solver].
    - intros y [[Hy| ->%elem_of_list_singleton]%elem_of_app|Hy].
      + apply Hsrc. by left.
      + apply Hsrc. by right.
      + destruct (Hm3 y Hy) as [[Hz1 _]|Hxz]; [apply Hsrc; by right|right; by exists x].
    - exists q', is', no', oe', placed'. split; [done|]. destruct Hr as (R1 & R2 & R3 & R4 & R5 & R6 & R7 & R8 & R9 & R10). repeat (split; [done|]).
      intros y [Hy|Hy]; [apply R10; left; apply elem_of_app; by left|]. destruct (decide (y = x)) as [->|]; [apply R10; left; apply elem_of_app; right; by left|].
      apply R10. right. set_solver.
  Qed.

  Lemma sorted_before placed i x y : StronglySorted (fun x y => rk x < rk y) placed -> placed !! i = Some x -> y ∈ placed -> rk x < rk y ->
    exists j, i < j /\ placed !! j = Some y.
  Proof.
    intros Hs Hi [j Hj]%elem_of_list_lookup Hlt. exists j. split; [|done].
    destruct (lt_eq_lt_dec i j) as [[?| ->]|Hji]; [done|rewrite Hi in Hj; injection Hj as ->; lia|]. exfalso.
    revert i j Hi Hj Hji. induction Hs as [|z placed Hs IH HF]; intros i j Hi Hj Hji; [done|].
    destruct i as [|i]; [lia|]. destruct j as [|j].
    - injection Hj as <-. rewrite Forall_forall in HF. assert (x ∈ placed) as Hx by (by eapply elem_of_list_lookup_2). specialize (HF _ Hx). lia.
    - apply (IH i j); [done|done|lia].
  Qed.

  Lemma reverse_range_drop (no : list nat) oe placed rest : oe <= length no -> drop oe no = rev placed ++ rest ->
    drop oe (reverse_range no oe (oe + length placed)) = placed ++ rest /\ length (reverse_range no oe (oe + length placed)) = length no.
  Proof.
    intros Hoe Hd. unfold reverse_range.
    assert (drop oe (take (oe + length placed) no) = rev placed) as ->.
    { rewrite <- (take_drop oe no) at 1. rewrite Hd. assert (length (take oe no) = oe) as Hl by (rewrite take_length; lia).
      rewrite take_app_ge by lia. rewrite drop_app_ge by lia. rewrite Hl. rewrite Nat.sub_diag, drop_0.
      replace (oe + length placed - oe) with (length (rev placed)) by (rewrite rev_length; lia). apply take_app. }
    assert (drop (oe + length placed) no = rest) as ->.
    { rewrite <- drop_drop, Hd. rewrite <- (rev_length placed). apply drop_app. }
    rewrite rev_involutive. assert (length (take oe no) = oe) as Hl by (rewrite take_length; lia). split.
    - rewrite drop_app_ge by lia. by rewrite Hl, Nat.sub_diag, drop_0.
    - rewrite !app_length, Hl. assert (length (drop oe no) = length placed + length rest) as H by (rewrite Hd, app_length, rev_length; done).
      rewrite drop_length in H. lia.
  Qed.

  Definition search_all (r : nat) (st : queue * list bool * list nat * nat) : option (queue * list bool * list nat * nat) :=
    let '(q, is, new_order, order_end) := st in
    bt ← bottom !! r;
    if (bt : bool) then
      let search_space_end := order_end in
      k ← rank !! r;
      q ← push q (r, N.of_nat k);
      i ← is !! r; _ ← chk (negb i);
      is ← wr is r true;
      '(q, is, new_order, order_end) ← visit_chunk rank bottom ffo fhead bfo bhead n (q, is, new_order, order_end);
      Some (q, is, reverse_range new_order order_end search_space_end, order_end)
    else Some (q, is, new_order, order_end).

  Lemma search_all_spec : exists q is no, for_range 0 n search_all (new_queue n, replicate n false, replicate n 0, n) = Some (q, is, no, 0) /\
    length no = n /\ perm no /\ topo no.
  Proof.
    destruct (for_range_inv (fun r '(q, is, no, oe) => exists rest, vq rest q is ∅ /\ length no = n /\ oe <= n /\ drop oe no = rest /\ NoDup rest /\
      (forall x, x ∈ rest -> x < n) /\ topo rest /\ (forall x, x < r -> bottom !! x = Some true -> x ∈ rest) /\
      (forall x, x ∈ rest -> bottom !! x = Some true -> x < r)) search_all 0 n (new_queue n, replicate n false, replicate n 0, n))
      as ([[[q is] no] oe] & -> & rest & Hv & Hno & Hoe & Hdr & Hnd & Hrl & Htopo & Hall & _).
    - lia.
    - exists []. split; [|split; [apply replicate_length|split; [done|split; [|split; [constructor|split; [by intros x ?%elem_of_nil|split; [done|split; [lia|by intros x ?%elem_of_nil]]]]]]]].
      + split; [apply qref_new|done|apply replicate_length| |done]. intros y. rewrite dom_empty_L. split; [intros [? ?]%lookup_replicate; done|].
        intros [[?%elem_of_nil|?] _]; [done|set_solver].
      + apply nil_length_inv. rewrite drop_length, replicate_length. lia.
    - intros r [[[q is] no] oe] Hr (rest & Hv & Hno & Hoe & Hdr & Hnd & Hrl & Htopo & Hall & Hbr). unfold search_all.
      destruct (lookup_lt_is_Some_2 bottom r) as [bt Hbr']; [lia|]. rewrite Hbr', bind_S. destruct bt.
      2:{ eexists. split; [done|]. cbv beta iota. exists rest. split; [done|]. split; [done|]. split; [done|]. split; [done|]. split; [done|]. split; [done|]. split; [done|].
          split; [|intros x Hx Hb'; pose proof (Hbr x Hx Hb'); lia]. intros x Hx Hb'. destruct (decide (x = r)) as [->|]; [congruence|]. apply Hall; [lia|done]. }
      cbv zeta. rewrite rk_lookup, bind_S by lia.
      assert (r ∉ rest) as Hrr by (intros Hin; specialize (Hbr r Hin Hbr'); lia).
      destruct (push_spec n q ∅ r (N.of_nat (rk r))) as (q1 & -> & Hq1); [apply Hv|lia|done|]. rewrite bind_S.
      destruct (lookup_lt_is_Some_2 is r) as [i Hi]; [rewrite (vq_len _ _ _ _ Hv); lia|]. rewrite Hi, bind_S.
      assert (i = false) as ->.
      { destruct i; [|done]. apply (vq_is _ _ _ _ Hv) in Hi as [[?|?] _]; [done|set_solver]. }
      cbn [negb chk]. rewrite bind_S. rewrite wr_Some, bind_S by (rewrite (vq_len _ _ _ _ Hv); lia).
      destruct (visit_chunk_spec r rest Htopo Hrl Hnd n [] q1 (<[r:=true]> is) no oe (<[r:=N.of_nat (rk r)]> ∅))
        as (q' & is' & no' & oe' & placed & -> & Hv' & Hnd' & Hpl' & Hno' & Hoe' & Hdr' & Hso & Hcl & Hsrc & Hin).
      + split; [done| |by rewrite insert_length; apply Hv| |].
        * intros y k [[<- <-]|[? ?]]%lookup_insert_Some; [split; [lia|done]|done].
        * intros y. rewrite list_lookup_insert_Some, (vq_is _ _ _ _ Hv), dom_insert_L, !dom_empty_L, elem_of_union, elem_of_singleton.
          rewrite (vq_len _ _ _ _ Hv). cbn. destruct (decide (y = r)) as [->|].
          -- split; [intros _; split; [right; by left|lia]|]. intros _. left. split; [done|]. split; [done|lia].
          -- split; [intros [(? & _)|(_ & [?|?] & ?)]; [congruence|tauto|set_solver]|]. intros ([?|[?|?]] & ?); [right; split; [congruence|tauto]|done|set_solver].
        * intros y Hy. rewrite dom_insert_L, dom_empty_L. cbn in Hy. intros [->%elem_of_singleton|?]%elem_of_union; [done|set_solver].
      + done.
      + by intros x ?%elem_of_nil.
      + done.
      + done.
      + done.
      + lia.
      + constructor.
      + by intros x y ?%elem_of_nil.
      + by intros x y ?%elem_of_nil.
      + intros x [?%elem_of_nil|Hx]; [done|]. left. rewrite dom_insert_L, dom_empty_L in Hx. set_solver.
      + rewrite bind_S. eexists. split; [done|]. cbv beta iota.
        assert (oe = oe' + length placed) as Hoe2.
        { assert (length (drop oe' no') = length placed + length rest) as H1 by (rewrite Hdr', app_length, rev_length; done).
          assert (length (drop oe no) = length rest) as H2 by (by rewrite Hdr). rewrite drop_length in H1. rewrite drop_length in H2. lia. }
        rewrite Hoe2. destruct (reverse_range_drop no' oe' placed rest) as [Hd2 Hl2]; [lia|done|].
        exists (placed ++ rest). split; [done|]. split; [lia|]. split; [lia|]. split; [done|]. split; [done|].
        split; [intros x [?|?]%elem_of_app; auto|]. split; [|split].
        * intros i x y Hi' Hxy. apply lookup_app_Some in Hi' as [Hi'|[Hge Hi']].
          -- assert (y ∈ placed ++ rest) as [Hy|Hy]%elem_of_app by (eapply Hcl; [by eapply elem_of_list_lookup_2|done]).
             ++ destruct (sorted_before placed i x y) as (j & Hj & Hjy); [done|done|done|by apply cup_rk|]. exists j. split; [done|]. by apply lookup_app_l_Some.
             ++ apply elem_of_list_lookup in Hy as [j Hj]. exists (length placed + j). split; [apply lookup_lt_Some in Hi'; lia|].
                rewrite lookup_app_r by lia. by replace (length placed + j - length placed) with j by lia.
          -- destruct (Htopo _ x y Hi' Hxy) as (j & Hj & Hjy). exists (length placed + j). split; [lia|].
             rewrite lookup_app_r by lia. by replace (length placed + j - length placed) with j by lia.
        * intros x Hx Hb'. apply elem_of_app. destruct (decide (x = r)) as [->|]; [|right; apply Hall; [lia|done]].
          left. apply Hin. right. rewrite dom_insert_L. set_solver.
        * intros x [Hx|Hx]%elem_of_app Hb'; [|specialize (Hbr x Hx Hb'); lia]. destruct (Hsrc x Hx) as [->|(z & Hz)]; [lia|].
          apply Hbt in Hb' as [_ Hb']. by destruct (Hb' z).
    - assert (forall k x, x < n -> rk x < k -> x ∈ rest) as Hcov.
      { induction k as [|k IH]; intros x Hx Hk; [lia|]. destruct (lookup_lt_is_Some_2 bottom x) as [[] Hb']; [lia|by apply Hall|].
        destruct (Hsrc0 x Hb') as (z & Hz). destruct (cup_lt _ _ Hz) as [Hzn _]. pose proof (cup_rk _ _ Hz).
        assert (z ∈ rest) as [i Hi]%elem_of_list_lookup by (apply IH; [done|lia]). destruct (Htopo i z x Hi Hz) as (j & _ & Hj). by eapply elem_of_list_lookup_2. }
      assert (n <= length rest) as Hln.
      { rewrite <- (seq_length n 0). apply submseteq_length, NoDup_submseteq; [apply NoDup_seq|]. intros x Hx%elem_of_seq. apply (Hcov (S (rk x))); lia. }
      assert (length (drop oe no) = length rest) as H1 by (by rewrite Hdr). rewrite drop_length in H1. assert (oe = 0) as -> by lia. rewrite drop_0 in Hdr. subst rest.
      exists q, is, no. split; [done|]. split; [done|]. split; [|done]. apply NoDup_bounded_perm; [done|]. intros x Hx. rewrite Hno. auto.
  Qed.
End cache.

Lemma optimize_order_for_cache_spec n rank ffo fhead bfo bhead :
  length rank = n -> perm rank -> csr n ffo fhead -> csr n bfo bhead ->
  (forall x y, cup ffo fhead bfo bhead x y -> exists i j, rank !! x = Some i /\ rank !! y = Some j /\ i < j) ->
  exists new_rank new_order, optimize_order_for_cache rank ffo fhead bfo bhead = Some (new_rank, new_order) /\
    length new_order = n /\ perm new_order /\ inverse_of new_order new_rank /\
    (forall x y, cup ffo fhead bfo bhead x y -> exists i j, new_rank !! x = Some i /\ new_rank !! y = Some j /\ i < j).
Proof.
  intros Hl Hp Hf Hb Hup. unfold optimize_order_for_cache. rewrite Hl. cbv zeta.
  destruct (clear_heads_spec n fhead (replicate n true)) as (b1 & -> & Hl1 & H1); [apply replicate_length|by eapply csr_head|]. rewrite bind_S.
  destruct (clear_heads_spec n bhead b1) as (bottom & -> & Hl2 & H2); [done|by eapply csr_head|]. rewrite bind_S.
  destruct (search_all_spec n rank ffo fhead bfo bhead Hl Hp Hf Hb Hup bottom Hl2) as (q & is & no & E & Hno & Hpn & Htopo).
  - intros y Hy. destruct (decide (y ∈ fhead)) as [[e He]%elem_of_list_lookup|Hnf].
    { destruct (csr_tail_exists _ _ _ e Hf) as (x & _ & Hx); [by eapply lookup_lt_Some|]. exists x. left. by exists e. }
    destruct (decide (y ∈ bhead)) as [[e He]%elem_of_list_lookup|Hnb].
    { destruct (csr_tail_exists _ _ _ e Hb) as (x & _ & Hx); [by eapply lookup_lt_Some|]. exists x. right. by exists e. }
    assert (bottom !! y = Some true); [|congruence]. apply H2. split; [|done]. apply H1. split; [|done].
    apply lookup_replicate_2. rewrite <- Hl2. by eapply lookup_lt_Some.
  - intros y. rewrite H2, H1. split.
    + intros [[[_ Hy]%lookup_replicate Hnf] Hnb]. split; [done|]. intros x [(e & _ & He)|(e & _ & He)]; [apply Hnf|apply Hnb]; by eapply elem_of_list_lookup_2.
    + intros [Hy Hn]. split; [split; [by apply lookup_replicate_2|]|].
      * intros [e He]%elem_of_list_lookup. destruct (csr_tail_exists _ _ _ e Hf) as (x & _ & Hx); [by eapply lookup_lt_Some|]. apply (Hn x). left. by exists e.
      * intros [e He]%elem_of_list_lookup. destruct (csr_tail_exists _ _ _ e Hb) as (x & _ & Hx); [by eapply lookup_lt_Some|]. apply (Hn x). right. by exists e.
  - change (for_range 0 n _ _) with (for_range 0 n (search_all n rank ffo fhead bfo bhead bottom) (new_queue n, replicate n false, replicate n 0, n)).
    rewrite E, bind_S. rewrite bool_decide_eq_true_2 by done. cbn [chk]. rewrite bind_S.
    destruct (is_permutation_correct no) as (b & -> & Hbp). rewrite bind_S. destruct b; [|by assert (false = true) by (by apply Hbp)]. cbn [chk]. rewrite bind_S.
    destruct (invert_permutation_correct no Hpn) as (nr & -> & Hinv & _). rewrite bind_S. exists nr, no. split; [done|]. split; [done|]. split; [done|]. split; [done|].
    intros x y Hxy. destruct (cup_lt n ffo fhead bfo bhead Hf Hb _ _ Hxy) as [Hx _].
    destruct (perm_surj no x Hpn) as [i Hi]; [lia|]. destruct (Htopo i x y Hi Hxy) as (j & Hij & Hj). exists i, j. split; [by apply Hinv|]. split; [by apply Hinv|done].
Qed.
