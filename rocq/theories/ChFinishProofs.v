(** The post-processing of CH construction: renumbering, sorting, unpacking information. *)
From Verif Require Import Base UtilSpec GraphSpec PermutationModel PermutationProofs SortModel SortProofs GraphUtilModel GraphUtilProofs WalkSpec
  CchChordalProofs CchBuildProofs
  ChCleanModel ChCleanSpec ChCleanProofs ChGraphModel ChContractProofs ChHierarchyProofs ChBuildModel ChLoopProofs ChSpec.
Ltac Zify.zify_post_hook ::= idtac.

(** ** Renumbering *)
Lemma apply_to_possibly_invalid_spec (p : list nat) v :
  (forall x, Some x ∈ v -> x < length p) ->
  exists r, apply_to_possibly_invalid p v = Some r /\ length r = length v /\
    forall i o, v !! i = Some o -> r !! i = Some (o ≫= (p !!.)).
Proof.
  intros Hb. unfold apply_to_possibly_invalid.
  match goal with |- context [for_range 0 _ ?b _] => set (body := b) end.
  destruct (for_range_inv
    (fun i r => length r = length v /\ (forall j o, j < i -> v !! j = Some o -> r !! j = Some (o ≫= (p !!.)))
       /\ (forall j, i <= j -> r !! j = v !! j)) body 0 (length v) v)
    as (r & -> & Hlen & Hinv & _); [lia|split; [done|split; [lia|done]]| |].
  - intros i r Hi (Hlen & Hinv & Hrest). unfold body.
    destruct (lookup_lt_is_Some_2 v i) as [o Ho]; [lia|]. rewrite (Hrest i), Ho, bind_S by lia.
    destruct o as [x|].
    + destruct (lookup_lt_is_Some_2 p x) as [y Hy]; [apply Hb; by eapply elem_of_list_lookup_2|]. rewrite Hy, bind_S. rewrite wr_Some by lia.
      eexists. split; [done|]. split; [by rewrite insert_length|]. split.
      * intros j o Hj Hjo. destruct (decide (i = j)) as [->|].
        { rewrite list_lookup_insert by lia. rewrite Ho in Hjo. injection Hjo as <-. cbn. by rewrite Hy. }
        rewrite list_lookup_insert_ne by done. apply Hinv; [lia|done].
      * intros j Hj. rewrite list_lookup_insert_ne by lia. apply Hrest. lia.
    + exists r. split; [done|]. split; [done|]. split.
      * intros j o Hj Hjo. destruct (decide (i = j)) as [->|]; [|apply Hinv; [lia|done]].
        rewrite Hrest, Ho by lia. rewrite Ho in Hjo. injection Hjo as <-. done.
      * intros j Hj. apply Hrest. lia.
  - exists r. split; [done|]. split; [done|]. intros i o Hi. apply Hinv; [|done]. by eapply lookup_lt_Some.
Qed.

(** arcs whose ranks go up *)
Definition ups (rank : list nat) (E : marcs) : Prop := forall u v w m, E u v w m -> exists x y, rank !! u = Some x /\ rank !! v = Some y /\ x < y.
Lemma raw_arc_at r i u : raw_ok r -> r_tail r !! i = Some u -> exists v w m, r_head r !! i = Some v /\ r_weight r !! i = Some w /\ r_mid r !! i = Some m /\ raw_arc r u v w m.
Proof.
  intros (H1 & H2 & H3) Hi. pose proof (lookup_lt_Some _ _ _ Hi).
  destruct (lookup_lt_is_Some_2 (r_head r) i) as [v Hv]; [lia|]. destruct (lookup_lt_is_Some_2 (r_weight r) i) as [w Hw]; [lia|].
  destruct (lookup_lt_is_Some_2 (r_mid r) i) as [m Hm]; [lia|]. exists v, w, m. split; [done|]. split; [done|]. split; [done|]. by exists i.
Qed.
Lemma renumber_side_spec (rank : list nat) r :
  raw_ok r -> ups rank (raw_arc r) -> (forall u v w z, raw_arc r u v w (Some z) -> z < length rank) ->
  exists r', renumber_side rank r = Some r' /\ raw_ok r' /\
    (forall x y w m', raw_arc r' x y w m' <-> exists u v m, raw_arc r u v w m /\ rank !! u = Some x /\ rank !! v = Some y /\ m' = m ≫= (rank !!.)).
Proof.
  intros Hok Hup Hmid. pose proof Hok as (H1 & H2 & H3). unfold renumber_side.
  destruct (apply_to_elements_correct rank (r_head r)) as (hd & Hhd & Hlh & Hh).
  { intros v [i Hi]%elem_of_list_lookup. destruct (lookup_lt_is_Some_2 (r_tail r) i) as [u Hu]; [apply lookup_lt_Some in Hi; lia|].
    destruct (raw_arc_at r i u Hok Hu) as (v' & w & m & Hv' & _ & _ & Harc). destruct (Hup _ _ _ _ Harc) as (x & y & Hx & Hy & _).
    rewrite Hi in Hv'. injection Hv' as <-. by eapply lookup_lt_Some. }
  destruct (apply_to_elements_correct rank (r_tail r)) as (tl & Htl & Hlt & Ht).
  { intros u [i Hu]%elem_of_list_lookup.
    destruct (raw_arc_at r i u Hok Hu) as (v' & w & m & Hv' & _ & _ & Harc). destruct (Hup _ _ _ _ Harc) as (x & y & Hx & Hy & _). by eapply lookup_lt_Some. }
  destruct (apply_to_possibly_invalid_spec rank (r_mid r)) as (md & Hmd & Hlm & Hm).
  { intros z [i Hi]%elem_of_list_lookup. destruct (lookup_lt_is_Some_2 (r_tail r) i) as [u Hu]; [apply lookup_lt_Some in Hi; lia|].
    destruct (raw_arc_at r i u Hok Hu) as (v' & w & m & Hv' & _ & Hm & Harc). rewrite Hi in Hm. injection Hm as <-. by eapply Hmid. }
  unfold apply_permutation_to_elements_of in Hhd, Htl. rewrite Hhd, bind_S, Htl, bind_S, Hmd, bind_S.
  destruct (for_range_inv (fun _ (_ : ()) => True) (fun i _ => x ← tl !! i; y ← hd !! i; chk (bool_decide (x < y))) 0 (length tl) tt) as ([] & -> & _).
  - lia.
  - done.
  - intros i [] Hi _. destruct (lookup_lt_is_Some_2 (r_tail r) i) as [u Hu]; [lia|].
    destruct (raw_arc_at r i u Hok Hu) as (v & w & m & Hv & _ & _ & Harc). destruct (Hup _ _ _ _ Harc) as (x & y & Hx & Hy & Hlt').
    rewrite (Ht _ _ Hu), Hx, bind_S, (Hh _ _ Hv), Hy, bind_S. rewrite bool_decide_eq_true_2 by done. by exists tt.
  - rewrite bind_S. eexists. split; [done|]. split; [unfold raw_ok; cbn; lia|]. intros x y w m'. unfold raw_arc at 1. cbn. split.
    + intros (i & Hx & Hy & Hw & Hm'). destruct (lookup_lt_is_Some_2 (r_tail r) i) as [u Hu]; [apply lookup_lt_Some in Hx; lia|].
      destruct (raw_arc_at r i u Hok Hu) as (v & w' & m & Hv & Hw' & Hm0 & Harc). exists u, v, m.
      rewrite <- (Ht _ _ Hu), <- (Hh _ _ Hv). rewrite (Hm _ _ Hm0) in Hm'. injection Hm' as <-. rewrite Hw in Hw'. injection Hw' as <-. done.
    + intros (u & v & m & (i & Hu & Hv & Hw & Hm0) & Hx & Hy & ->). exists i. rewrite (Ht _ _ Hu), (Hh _ _ Hv), (Hm _ _ Hm0). done.
Qed.

(** ** Sorting *)
Lemma permuted_by_lookup {T} r (v v' : list T) i j x : permuted_by r v v' -> r !! i = Some j -> v !! j = Some x -> v' !! i = Some x.
Proof. intros [_ H] Hr Hx. by rewrite (H _ _ Hr). Qed.
Lemma sort_side_spec asserts n r :
  raw_ok r -> (forall u v w m, raw_arc r u v w m -> u < n /\ v < n) ->
  exists r' fo, sort_side asserts n r = Some (r', fo) /\ raw_ok r' /\ csr n fo (r_head r') /\ heads_sorted fo (r_head r') /\
    (forall x e, out_arc fo x e <-> r_tail r' !! e = Some x) /\ (forall u v w m, raw_arc r' u v w m <-> raw_arc r u v w m).
Proof.
  intros Hok Hlt. pose proof Hok as (H1 & H2 & H3). unfold sort_side.
  assert (forall x, x ∈ r_tail r -> x < n) as Htl.
  { intros u [i Hi]%elem_of_list_lookup. destruct (raw_arc_at r i u Hok Hi) as (v & w & m & _ & _ & _ & Ha). by destruct (Hlt _ _ _ _ Ha). }
  assert (forall x, x ∈ r_head r -> x < n) as Hhd.
  { intros v [i Hi]%elem_of_list_lookup. destruct (lookup_lt_is_Some_2 (r_tail r) i) as [u Hu]; [apply lookup_lt_Some in Hi; lia|].
    destruct (raw_arc_at r i u Hok Hu) as (v' & w & m & Hv & _ & _ & Ha). rewrite Hi in Hv. injection Hv as <-. by destruct (Hlt _ _ _ _ Ha). }
  destruct (compute_inverse_sort_permutation_lex_apply_correct asserts n (r_tail r) n (r_head r)) as (p & pi & tl & He & Hs & Hi & Hp & _); [lia|done|done|].
  destruct (lex_perm (r_tail r) (r_head r) p ltac:(lia) Hs) as [Hr Hrl].
  assert (forall T `{Inhabited T} (v : list T), length v = length (r_tail r) -> exists v2, apply_inverse_permutation pi v = Some v2 /\ permuted_by p v v2) as Hap.
  { intros T HT v Hv. destruct (apply_inverse_permutation_correct pi v) as (v2 & Hv2 & Hlv & Hpv).
    { by eapply inverse_of_perm. } { rewrite (proj1 Hi). lia. }
    exists v2. split; [done|]. eapply inverse_permuted; try done. lia. }
  unfold compute_inverse_sort_permutation_first_by_tail_then_by_head_and_apply_sort_to_tail. rewrite He, bind_S.
  destruct (Hap nat _ (r_head r)) as (hd & -> & Hph); [lia|]. rewrite bind_S.
  destruct (Hap N _ (r_weight r)) as (ws & -> & Hpw); [lia|]. rewrite bind_S.
  destruct (Hap (option nat) _ (r_mid r)) as (md & -> & Hpm); [lia|]. rewrite bind_S.
  pose proof (lex_lexle _ _ _ _ _ Hs Hp Hph) as Hlex.
  assert (length tl = length hd) as Hlth by (destruct Hp, Hph; lia).
  destruct (index_spec n tl hd) as (fo & -> & Hc & Hout); [done|by eapply lexle_sorted| | |].
  { intros x [i Hx]%elem_of_list_lookup. destruct (permuted_lookup _ _ _ _ _ Hp Hx) as (j & _ & Hj). eapply Htl. by eapply elem_of_list_lookup_2. }
  { intros x [i Hx]%elem_of_list_lookup. destruct (permuted_lookup _ _ _ _ _ Hph Hx) as (j & _ & Hj). eapply Hhd. by eapply elem_of_list_lookup_2. }
  rewrite bind_S. eexists _, fo. split; [done|]. cbn.
  split. { unfold raw_ok. cbn. destruct Hp, Hph, Hpw, Hpm. lia. }
  split; [done|]. split.
  { intros x e e' a b Hx Hx' Hle Ha Hb. apply Hout in Hx, Hx'. destruct (decide (e = e')) as [->|]; [rewrite Ha in Hb; by injection Hb as ->|].
    destruct (Hlex e e' _ _ _ _ ltac:(lia) Hx Ha Hx' Hb) as [?|[_ ?]]; lia. }
  split; [done|]. intros u v w m. unfold raw_arc. cbn. split.
  - intros (i & Hu & Hv & Hw & Hm). destruct (permuted_lookup _ _ _ _ _ Hp Hu) as (j & Hj & Hu'). exists j.
    rewrite <- (proj2 Hph _ _ Hj), <- (proj2 Hpw _ _ Hj), <- (proj2 Hpm _ _ Hj). done.
  - intros (j & Hu & Hv & Hw & Hm). destruct (perm_surj p j) as [i Hj]; [done|apply lookup_lt_Some in Hu; lia|]. exists i.
    rewrite (proj2 Hp _ _ Hj), (proj2 Hph _ _ Hj), (proj2 Hpw _ _ Hj), (proj2 Hpm _ _ Hj). done.
Qed.

(** ** Unpacking information *)
Lemma find_arc_ex n fo head x y : csr n fo head -> heads_sorted fo head -> x < n -> y < n -> (exists e, arc_from_to fo head x y e) ->
  exists e, find_arc_given_sorted_head fo head x y = Some e /\ arc_from_to fo head x y e.
Proof.
  intros Hc Hs Hx Hy (e0 & He0). unfold find_arc_given_sorted_head. rewrite (find_arc_given_sorted_head_correct n) by done.
  destruct (find_arc_or_return_invalid_correct n fo head x y Hc Hx Hy) as (r & -> & Hr). rewrite bind_S.
  destruct r as [e|]; [|by destruct (Hr e0)]. exists e. split; [done|]. apply Hr.
Qed.
Lemma unpack_side_spec n forward fo head ids order ff fh bf bh sfo shead mid (Q : nat -> bool -> nat -> nat -> Prop) :
  csr n sfo shead -> length mid = length shead ->
  (forall x e y z, out_arc sfo x e -> shead !! e = Some y -> mid !! e = Some z ->
    exists o a b, (if (forward : bool) then unpack_entry fo head ids order ff fh bf bh z x y else unpack_entry fo head ids order ff fh bf bh z y x) = Some (o, a, b) /\ Q e o a b) ->
  exists orig first second, unpack_side forward n fo head ids order ff fh bf bh sfo shead mid = Some (orig, first, second) /\
    length orig = length shead /\ length first = length shead /\ length second = length shead /\
    forall e, e < length shead -> exists o a b, orig !! e = Some o /\ first !! e = Some a /\ second !! e = Some b /\ Q e o a b.
Proof.
  intros Hc Hlm HE. unfold unpack_side. cbv zeta.
  pose (filled := fun k '((orig, first, second) : list bool * list nat * list nat) =>
    length orig = length shead /\ length first = length shead /\ length second = length shead /\
    forall e, e < k -> exists o a b, orig !! e = Some o /\ first !! e = Some a /\ second !! e = Some b /\ Q e o a b).
  match goal with |- context [for_range 0 n ?b _] => set (body := b) end.
  destruct (for_range_inv (fun x st => forall lo, sfo !! x = Some lo -> filled lo st) body 0 n
     (replicate (length shead) false, replicate (length shead) 0, replicate (length shead) 0)) as ([[orig first] second] & -> & HI).
  - lia.
  - intros lo Hlo. rewrite (csr_first _ _ _ Hc) in Hlo. injection Hlo as <-. unfold filled. rewrite !replicate_length. split; [done|]. split; [done|]. split; [done|lia].
  - intros x st Hx Hst. unfold body. destruct (csr_range _ _ _ x Hc ltac:(lia)) as (lo & hi & Hlo & Hhi & Hle).
    rewrite Hlo, bind_S, Hhi, bind_S.
    match goal with |- context [for_range lo hi ?b _] => set (body2 := b) end.
    destruct (for_range_inv (fun e st => filled e st) body2 lo hi st) as (st' & -> & Hst').
    + lia.
    + by apply Hst.
    + intros e [[orig first] second] He (L1 & L2 & L3 & Hf). unfold body2.
      destruct (lookup_lt_is_Some_2 shead e) as [y Hy]; [lia|]. destruct (lookup_lt_is_Some_2 mid e) as [z Hz]; [lia|].
      rewrite Hy, bind_S, Hz, bind_S. destruct (HE x e y z) as (o & a & b & -> & HQ); [by exists lo, hi|done|done|]. rewrite bind_S.
      rewrite (wr_Some orig) by lia. rewrite bind_S. rewrite (wr_Some first) by lia. rewrite bind_S. rewrite (wr_Some second) by lia. rewrite bind_S.
      eexists. split; [done|]. unfold filled. rewrite !insert_length. split; [done|]. split; [done|]. split; [done|].
      intros e' He'. destruct (decide (e' = e)) as [->|].
      * exists o, a, b. rewrite !list_lookup_insert by lia. done.
      * rewrite !list_lookup_insert_ne by done. apply Hf. lia.
    + exists st'. split; [done|]. intros lo' Hlo'. injection Hlo' as <-. done.
  - destruct (HI _ (csr_last _ _ _ Hc)) as (L1 & L2 & L3 & Hf). exists orig, first, second. done.
Qed.

(** ** All together *)
Section finish.
  Variables (asserts : bool) (n : nat) (tail head : list nat) (w : list N) (a : arcs4) (rank order : list nat) (f b : rawside).
  Hypothesis Hin : arc_list n tail head w.
  Hypothesis Hcl : cleaned tail head w (a_tail a) (a_head a) (a_weight a) (a_id a).
  Hypothesis Hlo : length order = n.
  Hypothesis Hpo : perm order.
  Hypothesis Hinv : inverse_of order rank.
  Hypothesis Hokf : raw_ok f.
  Hypothesis Hokb : raw_ok b.
  Hypothesis Hfuncf : func (raw_arc f).
  Hypothesis Hfuncb : func (raw_arc b).
  Hypothesis Hupf : ups rank (raw_arc f).
  Hypothesis Hupb : ups rank (raw_arc b).
  Hypothesis Hjf : forall u v x m, raw_arc f u v x m -> just (raw_arc f) (raw_arc b) (arcs_of (a_tail a) (a_head a) (a_weight a)) u v x m.
  Hypothesis Hjb : forall u v x m, raw_arc b u v x m -> just (raw_arc f) (raw_arc b) (arcs_of (a_tail a) (a_head a) (a_weight a)) v u x m.
  Hypothesis Hcomp : forall u v L, u < n -> v < n -> dist_walk (arcs_of (a_tail a) (a_head a) (a_weight a)) u v L ->
    exists x L1 L2, (L1 + L2 <= L)%N /\ upstar (ew (raw_arc f)) u x L1 /\ upstar (ew (raw_arc b)) v x L2.

  Lemma rank_len : length rank = n.
  Proof. rewrite (proj1 Hinv). exact Hlo. Qed.
  Lemma rank_order u x : rank !! u = Some x <-> order !! x = Some u.
  Proof. symmetry. apply Hinv. Qed.
  Lemma order_lt x u : order !! x = Some u -> u < n.
  Proof. intros H%rank_order. rewrite <- rank_len. by eapply lookup_lt_Some. Qed.
  Lemma rank_lt u x : rank !! u = Some x -> x < n.
  Proof. intros H%rank_order. rewrite <- Hlo. by eapply lookup_lt_Some. Qed.

  Lemma clean_csr : exists fo, invert_vector (a_tail a) n = Some fo /\ csr n fo (a_head a) /\ heads_sorted fo (a_head a) /\
    forall x j, out_arc fo x j <-> a_tail a !! j = Some x.
  Proof.
    destruct (cl_len _ _ _ _ _ _ _ Hcl) as (L1 & L2 & L3). pose proof (cl_sorted _ _ _ _ _ _ _ Hcl) as Hss.
    assert (forall i u v, a_tail a !! i = Some u -> a_head a !! i = Some v -> u < n /\ v < n) as Hlt.
    { intros i u v Hu Hv. destruct (lookup_lt_is_Some_2 (a_weight a) i) as [x Hx]; [apply lookup_lt_Some in Hv; lia|].
      destruct (lookup_lt_is_Some_2 (a_id a) i) as [e He]; [apply lookup_lt_Some in Hv; lia|].
      destruct (cl_sound _ _ _ _ _ _ _ Hcl i u v x e) as (_ & (H1 & H2 & _) & _); [done|done|].
      destruct Hin as (_ & _ & Ht & Hh). rewrite Forall_lookup in Ht. rewrite Forall_lookup in Hh. split; [by eapply Ht|by eapply Hh]. }
    assert (lexlt (a_tail a) (a_head a)) as Hlex.
    { intros i j t h t' h' Hij H1 H2 H3 H4. by apply (Hss i j). }
    destruct (index_spec n (a_tail a) (a_head a)) as (fo & -> & Hc & Hout).
    - done.
    - eapply lexle_sorted; [done|]. by apply lexlt_lexle.
    - intros x [i Hi]%elem_of_list_lookup. destruct (lookup_lt_is_Some_2 (a_head a) i) as [v Hv]; [apply lookup_lt_Some in Hi; lia|]. by destruct (Hlt _ _ _ Hi Hv).
    - intros x [i Hi]%elem_of_list_lookup. destruct (lookup_lt_is_Some_2 (a_tail a) i) as [v Hv]; [apply lookup_lt_Some in Hi; lia|]. by destruct (Hlt _ _ _ Hv Hi).
    - exists fo. split; [done|]. split; [done|]. split; [|done].
      intros x e e' p q Hx Hx' Hle Hp Hq. apply Hout in Hx, Hx'. destruct (decide (e = e')) as [->|]; [rewrite Hp in Hq; by injection Hq as ->|].
      destruct (Hlex e e' _ _ _ _ ltac:(lia) Hx Hp Hx' Hq) as [?|[_ ?]]; lia.
  Qed.
  Lemma clean_unique i j u v : a_tail a !! i = Some u -> a_head a !! i = Some v -> a_tail a !! j = Some u -> a_head a !! j = Some v -> i = j.
  Proof.
    clear -Hcl. intros H1 H2 H3 H4. pose proof (cl_sorted _ _ _ _ _ _ _ Hcl) as Hss. destruct (lt_eq_lt_dec i j) as [[Hlt|]|Hlt]; [|done|].
    - specialize (Hss i j _ _ _ _ Hlt H1 H2 H3 H4). lia.
    - specialize (Hss j i _ _ _ _ Hlt H3 H4 H1 H2). lia.
  Qed.

  Lemma finish_ch_spec : exists c, finish_ch asserts n a rank order f b = Some c /\ ch_order c = order /\ ch_rank c = rank /\ ch_full n tail head w c.
  Proof.
    unfold finish_ch, make_internal_nodes_and_rank_coincide.
    assert (forall u v x z, raw_arc f u v x (Some z) -> z < length rank) as Hmf.
    { intros u v x z H. destruct (Hjf _ _ _ _ H) as (w1 & m1 & w2 & m2 & _ & H2 & _). destruct (Hupf _ _ _ _ H2) as (? & ? & Hz & _). by eapply lookup_lt_Some. }
    assert (forall u v x z, raw_arc b u v x (Some z) -> z < length rank) as Hmb.
    { intros u v x z H. destruct (Hjb _ _ _ _ H) as (w1 & m1 & w2 & m2 & _ & H2 & _). destruct (Hupf _ _ _ _ H2) as (? & ? & Hz & _). by eapply lookup_lt_Some. }
    destruct (renumber_side_spec rank f Hokf Hupf Hmf) as (f1 & -> & Hokf1 & Hf1). rewrite bind_S.
    destruct (renumber_side_spec rank b Hokb Hupb Hmb) as (b1 & -> & Hokb1 & Hb1). rewrite !bind_S.
    destruct (sort_side_spec asserts n f1 Hokf1) as (f2 & ff & -> & (Lf1 & Lf2 & Lf3) & Hcf & Hsf & Hof & Hf2).
    { intros x y v m (u1 & u2 & m0 & _ & Hx & Hy & _)%Hf1. split; by eapply rank_lt. }
    rewrite bind_S.
    destruct (sort_side_spec asserts n b1 Hokb1) as (b2 & bf & -> & (Lb1 & Lb2 & Lb3) & Hcb & Hsb & Hob & Hb2).
    { intros x y v m (u1 & u2 & m0 & _ & Hx & Hy & _)%Hb1. split; by eapply rank_lt. }
    rewrite bind_S.
    assert (forall x y v m', raw_arc f2 x y v m' <-> exists u1 u2 m, raw_arc f u1 u2 v m /\ rank !! u1 = Some x /\ rank !! u2 = Some y /\ m' = m ≫= (rank !!.)) as Hff.
    { intros. by rewrite Hf2, Hf1. }
    assert (forall x y v m', raw_arc b2 x y v m' <-> exists u1 u2 m, raw_arc b u1 u2 v m /\ rank !! u1 = Some x /\ rank !! u2 = Some y /\ m' = m ≫= (rank !!.)) as Hbb.
    { intros. by rewrite Hb2, Hb1. }
    clear f1 b1 Hokf1 Hf1 Hokb1 Hb1 Hf2 Hb2.
    destruct clean_csr as (fo & Hfo & Hcs & Hhs & Hout). unfold build_unpacking_information. rewrite Hfo, bind_S.
    assert (forall x e, out_arc ff x e -> exists y v m, r_head f2 !! e = Some y /\ r_weight f2 !! e = Some v /\ r_mid f2 !! e = Some m /\ raw_arc f2 x y v m) as Hatf.
    { intros x e He%Hof. by apply raw_arc_at. }
    assert (forall x e, out_arc bf x e -> exists y v m, r_head b2 !! e = Some y /\ r_weight b2 !! e = Some v /\ r_mid b2 !! e = Some m /\ raw_arc b2 x y v m) as Hatb.
    { intros x e He%Hob. by apply raw_arc_at. }
    assert (forall x y v m v' m', raw_arc f2 x y v m -> raw_arc f2 x y v' m' -> v = v') as Hff2.
    { intros x y v m v' m' (u1 & u2 & m0 & Ha & Hx & Hy & _)%Hff (u1' & u2' & m0' & Ha' & Hx' & Hy' & _)%Hff.
      apply rank_order in Hx, Hy, Hx', Hy'. simplify_eq. by destruct (Hfuncf _ _ _ _ _ _ Ha Ha'). }
    assert (forall x y v m v' m', raw_arc b2 x y v m -> raw_arc b2 x y v' m' -> v = v') as Hbb2.
    { intros x y v m v' m' (u1 & u2 & m0 & Ha & Hx & Hy & _)%Hbb (u1' & u2' & m0' & Ha' & Hx' & Hy' & _)%Hbb.
      apply rank_order in Hx, Hy, Hx', Hy'. simplify_eq. by destruct (Hfuncb _ _ _ _ _ _ Ha Ha'). }
    (* arcs of the finished sides *)
    pose (fin := fun (e x y : nat) (v : N) (o : bool) (p q : nat) => if o
      then exists u1 u2, order !! x = Some u1 /\ order !! y = Some u2 /\ is_arc tail head w p u1 u2 v /\ q = u2
      else exists z v1 v2, (out_arc bf z p /\ r_head b2 !! p = Some x /\ r_weight b2 !! p = Some v1) /\
                           (out_arc ff z q /\ r_head f2 !! q = Some y /\ r_weight f2 !! q = Some v2) /\ v = (v1 + v2)%N).
    assert (forall e u1 u2 x y v m m', rank !! u1 = Some x -> rank !! u2 = Some y ->
      just (raw_arc f) (raw_arc b) (arcs_of (a_tail a) (a_head a) (a_weight a)) u1 u2 v m -> m' = m ≫= (rank !!.) ->
      exists o p q, unpack_entry fo (a_head a) (a_id a) order ff (r_head f2) bf (r_head b2) m' x y = Some (o, p, q) /\ fin e x y v o p q) as Hentry.
    { intros e u1 u2 x y v m m' Hx Hy Hj ->. pose proof Hx as Hx'. pose proof Hy as Hy'. apply rank_order in Hx', Hy'. destruct m as [z|]; cbn.
      - destruct Hj as (v1 & m1 & v2 & m2 & H1 & H2 & ->). destruct (Hupf _ _ _ _ H2) as (rz & _ & Hz & _).
        rewrite Hz. cbn. assert (rz < n) by (by eapply rank_lt). assert (x < n) by (by eapply rank_lt). assert (y < n) by (by eapply rank_lt).
        assert (raw_arc b2 rz x v1 (m1 ≫= (rank !!.))) as Hb' by (apply Hbb; by exists z, u1, m1).
        assert (raw_arc f2 rz y v2 (m2 ≫= (rank !!.))) as Hf' by (apply Hff; by exists z, u2, m2).
        destruct (find_arc_ex n bf (r_head b2) rz x) as (p & -> & [Hp1 Hp2]); [done|done|done|done| |].
        { destruct Hb' as (i & ? & ? & _). exists i. split; [by apply Hob|done]. }
        rewrite bind_S.
        destruct (find_arc_ex n ff (r_head f2) rz y) as (q & -> & [Hq1 Hq2]); [done|done|done|done| |].
        { destruct Hf' as (i & ? & ? & _). exists i. split; [by apply Hof|done]. }
        rewrite bind_S. exists false, p, q. split; [done|]. cbn. exists rz, v1, v2.
        destruct (Hatb _ _ Hp1) as (y1 & w1 & m3 & E1 & E2 & _ & Hr1). rewrite Hp2 in E1. injection E1 as <-.
        destruct (Hatf _ _ Hq1) as (y2 & w2 & m4 & E3 & E4 & _ & Hr2). rewrite Hq2 in E3. injection E3 as <-.
        rewrite (Hbb2 _ _ _ _ _ _ Hb' Hr1), (Hff2 _ _ _ _ _ _ Hf' Hr2). done.
      - cbn in Hj. destruct Hj as (i & Hi1 & Hi2 & Hi3). rewrite Hx', bind_S, Hy', bind_S.
        destruct (find_arc_ex n fo (a_head a) u1 u2) as (p & -> & [Hp1 Hp2]); [done|done|by eapply order_lt|by eapply order_lt| |].
        { exists i. split; [by apply Hout|done]. }
        rewrite bind_S. apply Hout in Hp1. assert (p = i) as -> by (by eapply clean_unique).
        destruct (cl_len _ _ _ _ _ _ _ Hcl) as (_ & _ & L3).
        destruct (lookup_lt_is_Some_2 (a_id a) i) as [d Hd]; [apply lookup_lt_Some in Hi2; lia|].
        rewrite Hd, bind_S, Hi2, bind_S. exists true, d, u2. split; [done|]. cbn. exists u1, u2. split; [done|]. split; [done|]. split; [|done].
        destruct (cl_sound _ _ _ _ _ _ _ Hcl i u1 u2 v d) as (_ & ? & _); done. }
    destruct (unpack_side_spec n true fo (a_head a) (a_id a) order ff (r_head f2) bf (r_head b2) ff (r_head f2) (r_mid f2)
      (fun e o p q => forall x y v, out_arc ff x e -> r_head f2 !! e = Some y -> r_weight f2 !! e = Some v -> fin e x y v o p q))
      as (fo1 & fa & fs & -> & Lf4 & Lf5 & Lf6 & Hfu); [done|lia| |].
    { intros x e y z He Hy Hz. destruct (Hatf x e He) as (y' & v & m & E1 & E2 & E3 & Hr). rewrite Hy in E1. injection E1 as <-. rewrite Hz in E3. injection E3 as <-.
      apply Hff in Hr as (u1 & u2 & m0 & Hr & Hx & Hy' & Hm). destruct (Hentry e u1 u2 x y v m0 z) as (o & p & q & E & Hfin); [done|done|by apply Hjf|done|].
      exists o, p, q. split; [done|]. intros x' y' v' Hx' Hy2 Hv'. rewrite Hy in Hy2. injection Hy2 as <-. rewrite E2 in Hv'. injection Hv' as <-.
      by rewrite (out_arc_unique _ _ _ _ _ _ Hcf Hx' He). }
    rewrite bind_S.
    destruct (unpack_side_spec n false fo (a_head a) (a_id a) order ff (r_head f2) bf (r_head b2) bf (r_head b2) (r_mid b2)
      (fun e o p q => forall x y v, out_arc bf x e -> r_head b2 !! e = Some y -> r_weight b2 !! e = Some v -> fin e y x v o p q))
      as (bo1 & ba & bs & -> & Lb4 & Lb5 & Lb6 & Hbu); [done|lia| |].
    { intros x e y z He Hy Hz. destruct (Hatb x e He) as (y' & v & m & E1 & E2 & E3 & Hr). rewrite Hy in E1. injection E1 as <-. rewrite Hz in E3. injection E3 as <-.
      apply Hbb in Hr as (u1 & u2 & m0 & Hr & Hx & Hy' & Hm). destruct (Hentry e u2 u1 y x v m0 z) as (o & p & q & E & Hfin); [done|done|by apply Hjb|done|].
      exists o, p, q. split; [done|]. intros x' y' v' Hx' Hy2 Hv'. rewrite Hy in Hy2. injection Hy2 as <-. rewrite E2 in Hv'. injection Hv' as <-.
      by rewrite (out_arc_unique _ _ _ _ _ _ Hcb Hx' He). }
    rewrite bind_S. eexists. split; [done|]. split; [done|]. split; [done|].
    assert (forall x e y v, out_arc ff x e -> r_head f2 !! e = Some y -> r_weight f2 !! e = Some v -> x < y) as Hupf2.
    { intros x e y v He Hy Hv. destruct (Hatf x e He) as (y' & v' & m & E1 & E2 & E3 & Hr). rewrite Hy in E1. injection E1 as <-.
      apply Hff in Hr as (u1 & u2 & m0 & Hr & Hx & Hy' & Hm). destruct (Hupf _ _ _ _ Hr) as (x1 & y1 & ? & ? & ?). simplify_eq. done. }
    assert (forall x e y v, out_arc bf x e -> r_head b2 !! e = Some y -> r_weight b2 !! e = Some v -> x < y) as Hupb2.
    { intros x e y v He Hy Hv. destruct (Hatb x e He) as (y' & v' & m & E1 & E2 & E3 & Hr). rewrite Hy in E1. injection E1 as <-.
      apply Hbb in Hr as (u1 & u2 & m0 & Hr & Hx & Hy' & Hm). destruct (Hupb _ _ _ _ Hr) as (x1 & y1 & ? & ? & ?). simplify_eq. done. }
    split; cbn; try done.
    - split; cbn; try done; [lia|]. intros e x y v (H1 & H2 & H3). by eapply Hupf2.
    - split; cbn; try done; [lia|]. intros e x y v (H1 & H2 & H3). by eapply Hupb2.
    - intros e x y v (H1 & H2 & H3). cbn in *. destruct (Hfu e) as (o & p & q & Ho & Hp & Hq & Hfin); [by eapply lookup_lt_Some|].
      exists o, p, q. split; [done|]. specialize (Hfin _ _ _ H1 H2 H3). unfold fin in Hfin. unfold entry_ok, sarc. cbn. by destruct o.
    - intros e x y v (H1 & H2 & H3). cbn in *. destruct (Hbu e) as (o & p & q & Ho & Hp & Hq & Hfin); [by eapply lookup_lt_Some|].
      exists o, p, q. split; [done|]. specialize (Hfin _ _ _ H1 H2 H3). unfold fin in Hfin. unfold entry_ok, sarc. cbn. by destruct o.
    - intros s t L x y _ Hd Hx Hy. destruct (cleaned_walk _ _ _ _ _ _ _ Hcl s t) as [_ Hw]. destruct (Hw L Hd) as (L' & HL & Hd').
      destruct (Hcomp s t L') as (z & L1 & L2 & HLe & Hup & Hdn); [rewrite <- rank_len; by eapply lookup_lt_Some|rewrite <- rank_len; by eapply lookup_lt_Some|done|].
      assert (forall (E : marcs) (sd : chside), ups rank E -> (forall u1 u2 v m, E u1 u2 v m -> exists x y, rank !! u1 = Some x /\ rank !! u2 = Some y /\ swarcs sd x y v) ->
         forall p q M, upstar (ew E) p q M -> forall xp, rank !! p = Some xp -> exists xq, rank !! q = Some xq /\ upstar (swarcs sd) xp xq M) as Htr.
      { intros E sd HE Hsd p q M H. induction H as [p|p q r M v _ IH (m & Hm)]; intros xp Hxp; [exists xp; split; [done|constructor]|].
        destruct (IH xp Hxp) as (xq & Hxq & Hup'). destruct (Hsd _ _ _ _ Hm) as (x1 & y1 & Hx1 & Hy1 & Hs). rewrite Hxq in Hx1. injection Hx1 as <-.
        exists y1. split; [done|]. by econstructor. }
      destruct (Htr (raw_arc f) (mkChside ff (r_head f2) (r_weight f2) fo1 fa fs) Hupf) with (p := s) (q := z) (M := L1) (xp := x) as (zr & Hzr & Hu1); [|done|done|].
      { intros u1 u2 v m H. destruct (Hupf _ _ _ _ H) as (x1 & y1 & Hx1 & Hy1 & _). exists x1, y1. split; [done|]. split; [done|].
        assert (raw_arc f2 x1 y1 v (m ≫= (rank !!.))) as (i & E1 & E2 & E3 & _) by (apply Hff; by exists u1, u2, m). exists i. split; [by apply Hof|]. done. }
      destruct (Htr (raw_arc b) (mkChside bf (r_head b2) (r_weight b2) bo1 ba bs) Hupb) with (p := t) (q := z) (M := L2) (xp := y) as (zr' & Hzr' & Hu2); [|done|done|].
      { intros u1 u2 v m H. destruct (Hupb _ _ _ _ H) as (x1 & y1 & Hx1 & Hy1 & _). exists x1, y1. split; [done|]. split; [done|].
        assert (raw_arc b2 x1 y1 v (m ≫= (rank !!.))) as (i & E1 & E2 & E3 & _) by (apply Hbb; by exists u1, u2, m). exists i. split; [by apply Hob|]. done. }
      rewrite Hzr in Hzr'. injection Hzr' as <-. exists zr, L1, L2. split; [lia|]. done.
  Qed.
End finish.
