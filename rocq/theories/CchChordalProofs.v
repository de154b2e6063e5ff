(** The chordal supergraph computed by the CCH constructor. *)
From Verif Require Import Base UtilSpec GraphSpec PathSpec WalkSpec PermutationModel SortModel GraphUtilModel
  PermutationProofs SortProofs GraphUtilProofs CchModel CchSpec CchCustomizeProofs CchBuildModel.
Ltac Zify.zify_post_hook ::= idtac.

(** ** Pairs of parallel lists *)
Definition has_arc (a b : list nat) (t h : nat) : Prop := exists i, a !! i = Some t /\ b !! i = Some h.
Definition lexle (a b : list nat) : Prop :=
  forall i j t h t' h', i < j -> a !! i = Some t -> b !! i = Some h -> a !! j = Some t' -> b !! j = Some h' ->
    t < t' \/ (t = t' /\ h <= h').
Definition lexlt (a b : list nat) : Prop :=
  forall i j t h t' h', i < j -> a !! i = Some t -> b !! i = Some h -> a !! j = Some t' -> b !! j = Some h' ->
    t < t' \/ (t = t' /\ h < h').
(** no pair occurs twice *)
Definition distinct (a b : list nat) : Prop :=
  forall i j t h, a !! i = Some t -> b !! i = Some h -> a !! j = Some t -> b !! j = Some h -> i = j.

Lemma permuted_lookup {T} r (v w : list T) i y : permuted_by r v w -> w !! i = Some y -> exists x, r !! i = Some x /\ v !! x = Some y.
Proof.
  intros [Hl H] Hi. destruct (lookup_lt_is_Some_2 r i) as [x Hx]; [apply lookup_lt_Some in Hi; lia|].
  exists x. split; [done|]. by rewrite <- (H _ _ Hx).
Qed.
Lemma perm_has_arc r a b a2 b2 t h :
  perm r -> length r = length a -> permuted_by r a a2 -> permuted_by r b b2 -> has_arc a2 b2 t h <-> has_arc a b t h.
Proof.
  intros Hr Hl [Hla Ha] [Hlb Hb]. split.
  - intros (i & Hi & Hi'). destruct (lookup_lt_is_Some_2 r i) as [x Hx]; [apply lookup_lt_Some in Hi; lia|].
    exists x. rewrite <- (Ha _ _ Hx), <- (Hb _ _ Hx). done.
  - intros (x & Hx & Hx'). destruct (perm_surj r x) as [i Hi]; [done|apply lookup_lt_Some in Hx; lia|].
    exists i. rewrite (Ha _ _ Hi), (Hb _ _ Hi). done.
Qed.
Lemma perm_distinct r a b a2 b2 :
  perm r -> permuted_by r a a2 -> permuted_by r b b2 -> distinct a b -> distinct a2 b2.
Proof.
  intros Hr Ha Hb Hd i j t h Hi Hi' Hj Hj'.
  destruct (permuted_lookup _ _ _ _ _ Ha Hi) as (x & Hx & Hx1), (permuted_lookup _ _ _ _ _ Ha Hj) as (y & Hy & Hy1).
  pose proof (proj2 Hb _ _ Hx) as Ex. pose proof (proj2 Hb _ _ Hy) as Ey.
  assert (x = y) as -> by (apply (Hd x y t h); [exact Hx1|congruence|exact Hy1|congruence]).
  by eapply perm_inj.
Qed.
Lemma lexle_lexlt a b : distinct a b -> lexle a b -> lexlt a b.
Proof.
  intros Hd H i j t h t' h' Hij Hi Hi' Hj Hj'. destruct (H _ _ _ _ _ _ Hij Hi Hi' Hj Hj') as [?|[-> ?]]; [by left|right].
  split; [done|]. destruct (decide (h = h')) as [->|]; [|lia]. specialize (Hd _ _ _ _ Hi Hi' Hj Hj'). lia.
Qed.
Lemma lexlt_distinct a b : lexlt a b -> distinct a b.
Proof.
  intros H i j t h Hi Hi' Hj Hj'. destruct (lt_eq_lt_dec i j) as [[Hl|?]|Hl]; [|done|].
  - specialize (H _ _ _ _ _ _ Hl Hi Hi' Hj Hj'). lia.
  - specialize (H _ _ _ _ _ _ Hl Hj Hj' Hi Hi'). lia.
Qed.
Lemma lex_perm a b r : length a = length b -> lex_sort_perm a b r -> perm r /\ length r = length a.
Proof.
  intros Hl [Hp _]. assert (length r = length a) as Hr by (rewrite Hp; apply seq_length).
  split; [unfold perm; by rewrite Hr|done].
Qed.
Lemma lex_lexle a b r a2 b2 : lex_sort_perm a b r -> permuted_by r a a2 -> permuted_by r b b2 -> lexle a2 b2.
Proof.
  intros [_ Hs] Ha Hb i j t h t' h' Hij Hi Hi' Hj Hj'.
  destruct (permuted_lookup _ _ _ _ _ Ha Hi) as (x & Hx & Hx1), (permuted_lookup _ _ _ _ _ Ha Hj) as (y & Hy & Hy1).
  rewrite (proj2 Hb _ _ Hx) in Hi'. rewrite (proj2 Hb _ _ Hy) in Hj'.
  specialize (Hs _ _ _ _ _ _ _ _ Hij Hx Hy Hx1 Hy1 Hi' Hj'). lia.
Qed.
Lemma inverse_permuted {T} r ri (v w : list T) : inverse_of r ri -> length w = length v -> length r = length v -> permuted_by ri w v -> permuted_by r v w.
Proof.
  intros [Hl Hi] Hw Hr [_ H]. split; [lia|]. intros x i Hx. symmetry. apply H. by apply Hi.
Qed.

(** Sorting with the inverse permutation. *)
Lemma sort_inverse asserts n a b :
  length a = length b -> (forall x, x ∈ a -> x < n) -> (forall x, x ∈ b -> x < n) ->
  exists p r a2,
    compute_inverse_sort_permutation_first_by_tail_then_by_head_and_apply_sort_to_tail asserts n a b = Some (p, a2) /\
    perm r /\ length r = length a /\ permuted_by r a a2 /\
    (forall v : list nat, length v = length a -> exists v2, apply_inverse_permutation p v = Some v2 /\ permuted_by r v v2) /\
    (forall b2, permuted_by r b b2 -> lexle a2 b2).
Proof.
  intros Hl Ha Hb. destruct (compute_inverse_sort_permutation_lex_apply_correct asserts n a n b Hl Ha Hb) as (r & ri & a2 & He & Hs & Hi & Hp & _).
  destruct (lex_perm _ _ _ Hl Hs) as [Hr Hrl]. exists ri, r, a2.
  split; [exact He|]. split; [done|]. split; [done|]. split; [done|]. split.
  - intros v Hv. destruct (apply_inverse_permutation_correct ri v) as (v2 & Hv2 & Hlv & Hpv).
    { by eapply inverse_of_perm. } { rewrite (proj1 Hi). lia. }
    exists v2. split; [done|]. eapply inverse_permuted; try done. lia.
  - intros b2 Hb2. by eapply lex_lexle.
Qed.
Lemma sort_direct asserts n a b :
  length a = length b -> (forall x, x ∈ a -> x < n) -> (forall x, x ∈ b -> x < n) ->
  exists r a2,
    compute_sort_permutation_first_by_tail_then_by_head_and_apply_sort_to_tail asserts n a b = Some (r, a2) /\
    perm r /\ length r = length a /\ permuted_by r a a2 /\
    (forall v : list nat, length v = length a -> exists v2, apply_permutation r v = Some v2 /\ permuted_by r v v2) /\
    (forall b2, permuted_by r b b2 -> lexle a2 b2).
Proof.
  intros Hl Ha Hb. destruct (compute_sort_permutation_lex_apply_correct asserts n a n b Hl Ha Hb) as (r & a2 & He & Hs & Hp & _).
  destruct (lex_perm _ _ _ Hl Hs) as [Hr Hrl]. exists r, a2.
  split; [exact He|]. split; [done|]. split; [done|]. split; [done|]. split.
  - intros v Hv. apply apply_permutation_correct; [done|lia].
  - intros b2 Hb2. by eapply lex_lexle.
Qed.
Lemma permuted_elem {T} r (v w : list T) x : permuted_by r v w -> x ∈ w -> x ∈ v.
Proof. intros Hp [i Hi]%elem_of_list_lookup_1. destruct (permuted_lookup _ _ _ _ _ Hp Hi) as (j & _ & Hj). by eapply elem_of_list_lookup_2. Qed.

(** ** Filtering parallel lists *)
Lemma select_has_arc k a b t h :
  has_arc (select (fun x => x) k a) (select (fun x => x) k b) t h -> length a = length b ->
  exists i, k !! i = Some true /\ a !! i = Some t /\ b !! i = Some h.
Proof.
  revert a b. induction k as [|c k IH]; intros [|x a] [|y b] (i & Hi & Hi') Hl; try done; cbn in Hl; [cbn in *; by destruct i..|].
  cbn in Hi, Hi'. destruct c.
  - destruct i as [|i]; cbn in Hi, Hi'; [exists 0; by simplify_eq|].
    destruct (IH a b) as (j & Hj); [by exists i|lia|]. by exists (S j).
  - destruct (IH a b) as (j & Hj); [by exists i|lia|]. by exists (S j).
Qed.
Lemma select_local {T} k (v : list T) i x :
  k !! i = Some true -> v !! i = Some x ->
  exists j, local_id k i = Some j /\ select (fun x => x) k v !! j = Some x.
Proof.
  intros Hk Hv. exists (length (filter Is_true (take i k))). unfold local_id. rewrite Hk. bs. split; [done|].
  revert v i Hk Hv. induction k as [|c k IH]; intros [|y v] [|i] Hk Hv; try done; cbn in Hk, Hv; simplify_eq; [done|].
  cbn [select take]. destruct c.
  - rewrite filter_cons_True by done. cbn. by apply IH.
  - rewrite filter_cons_False by (intros []). by apply IH.
Qed.
Lemma select_index {T} k (v : list T) j x :
  select (fun x => x) k v !! j = Some x -> exists i, k !! i = Some true /\ v !! i = Some x /\ local_id k i = Some j.
Proof.
  intros H. cut (exists i, k !! i = Some true /\ v !! i = Some x /\ length (filter Is_true (take i k)) = j).
  { intros (i & Hi & Hv & Hl). exists i. split; [done|]. split; [done|]. unfold local_id. rewrite Hi. bs. by rewrite Hl. }
  revert v j H. induction k as [|c k IH]; intros [|y v] j H; cbn in H; try done.
  destruct c.
  - destruct j as [|j]; cbn in H; [exists 0; by simplify_eq|].
    destruct (IH v j H) as (i & Hi & Hv & Hl). exists (S i). split; [done|]. split; [done|].
    cbn [take]. rewrite filter_cons_True by done. cbn. lia.
  - destruct (IH v j H) as (i & Hi & Hv & Hl). exists (S i). split; [done|]. split; [done|].
    cbn [take]. rewrite filter_cons_False by (intros []). done.
Qed.
Lemma local_id_mono k i i' j j' : local_id k i = Some j -> local_id k i' = Some j' -> j < j' <-> i < i'.
Proof.
  cut (forall i i' j j', local_id k i = Some j -> local_id k i' = Some j' -> i < i' -> j < j').
  { intros C H H'. split; [|by eapply C]. intros Hj. destruct (lt_eq_lt_dec i i') as [[?| ->]|Hl]; [done| |].
    - simplify_eq. lia.
    - specialize (C _ _ _ _ H' H Hl). lia. }
  clear. intros i i' j j'. unfold local_id. destruct (k !! i) as [[]|] eqn:Hi; bs; try done.
  destruct (k !! i') as [[]|] eqn:Hi'; bs; try done. intros [= <-] [= <-] Hl.
  replace (take i' k) with (take i k ++ true :: take (i' - S i) (drop (S i) k)).
  - rewrite filter_app, filter_cons_True by done. rewrite app_length. cbn. lia.
  - apply list_eq. intros x. destruct (decide (x < i)) as [?|?].
    + rewrite lookup_app_l by (rewrite take_length_le; [lia|apply lookup_lt_Some in Hi; lia]).
      rewrite !lookup_take by lia. done.
    + rewrite lookup_app_r by (rewrite take_length_le; [lia|apply lookup_lt_Some in Hi; lia]).
      rewrite take_length_le by (apply lookup_lt_Some in Hi; lia).
      destruct (x - i) as [|y] eqn:Hy.
      * replace x with i by lia. rewrite lookup_take by lia. done.
      * rewrite lookup_cons_ne_0 by lia. cbn [pred]. destruct (decide (x < i')).
        -- rewrite !lookup_take by lia. rewrite lookup_drop. f_equal. lia.
        -- rewrite !lookup_take_ge by lia. done.
Qed.
Lemma local_id_inj k i i' j : local_id k i = Some j -> local_id k i' = Some j -> i = i'.
Proof.
  intros H H'. pose proof (local_id_mono _ _ _ _ _ H H'). pose proof (local_id_mono _ _ _ _ _ H' H). lia.
Qed.
Lemma local_id_lt k i : k !! i = Some true -> exists j, local_id k i = Some j /\ j < length (filter Is_true k).
Proof.
  intros Hi. eexists. unfold local_id. rewrite Hi. bs. split; [done|].
  rewrite <- (take_drop_middle k i true) at 2 by done. rewrite filter_app, filter_cons_True by done. rewrite app_length. cbn. lia.
Qed.
Lemma local_id_set k i j : local_id k i = Some j -> k !! i = Some true.
Proof. unfold local_id. destruct (k !! i) as [[]|]; by bs. Qed.

(** ** The symmetric graph *)
Lemma mapM_seq {T} (f : nat -> option T) n :
  (forall i, i < n -> exists x, f i = Some x) ->
  exists l, mapM f (seq 0 n) = Some l /\ length l = n /\ forall i x, l !! i = Some x <-> i < n /\ f i = Some x.
Proof.
  intros H. destruct (mapM_is_Some_2 f (seq 0 n)) as [l Hl].
  { apply Forall_forall. intros i Hi%elem_of_seq. destruct (H i) as [x Hx]; [lia|]. by exists x. }
  exists l. split; [done|]. apply mapM_Some in Hl. pose proof (Forall2_length _ _ _ Hl) as Hlen. rewrite seq_length in Hlen.
  split; [done|]. intros i x. split.
  - intros Hx. assert (i < n) by (apply lookup_lt_Some in Hx; lia). split; [done|].
    destruct (Forall2_lookup_r _ _ _ _ _ Hl Hx) as (j & Hj & Hf). apply lookup_seq in Hj as [-> _]. done.
  - intros [Hi Hf]. destruct (lookup_lt_is_Some_2 l i) as [y Hy]; [lia|].
    destruct (Forall2_lookup_r _ _ _ _ _ Hl Hy) as (j & Hj & Hf'). apply lookup_seq in Hj as [-> _]. cbn in Hf'. congruence.
Qed.

Lemma sym_first (a b : list nat) i t h : a !! i = Some t -> b !! i = Some h ->
  exists j, j <= i /\ a !! j = Some t /\ b !! j = Some h /\ forall k, S k = j -> ~ (a !! k = Some t /\ b !! k = Some h).
Proof.
  induction i as [|i IH]; intros Ha Hb.
  - exists 0. split; [done|]. split; [done|]. split; [done|]. lia.
  - destruct (decide (a !! i = Some t /\ b !! i = Some h)) as [[H1 H2]|Hn].
    + destruct (IH H1 H2) as (j & Hj & H). exists j. split; [lia|done].
    + exists (S i). split; [done|]. split; [done|]. split; [done|]. intros k [= ->]. done.
Qed.

Lemma symmetric_graph_spec asserts n rt rh :
  length rt = length rh -> (forall x, x ∈ rt -> x < n) -> (forall x, x ∈ rh -> x < n) ->
  exists st sh, symmetric_graph asserts n rt rh = Some (st, sh) /\ length st = length sh /\
    forall t h, has_arc st sh t h <-> t <> h /\ (has_arc rt rh t h \/ has_arc rt rh h t).
Proof.
  intros Hl Ht Hh. unfold symmetric_graph.
  assert (length (rt ++ rh) = length (rh ++ rt)) as Hl2 by (rewrite !app_length; lia).
  destruct (sort_inverse asserts n (rt ++ rh) (rh ++ rt)) as (p & r & a2 & He & Hr & Hrl & Hpa & Hv & _).
  { done. } { intros x [?|?]%elem_of_app; auto. } { intros x [?|?]%elem_of_app; auto. }
  rewrite He. bs. cbv iota. destruct (Hv (rh ++ rt)) as (b2 & Hb2 & Hpb); [done|]. rewrite Hb2. bs.
  assert (length a2 = length b2) as Hl3 by (rewrite (proj1 Hpa), (proj1 Hpb); done).
  destruct (mapM_seq (sym_keep a2 b2) (length a2)) as (bits & Hm & Hbl & Hbits).
  { intros i Hi. destruct (lookup_lt_is_Some_2 a2 i) as [t Ht1]; [lia|]. destruct (lookup_lt_is_Some_2 b2 i) as [h Hh1]; [lia|].
    unfold sym_keep. rewrite Ht1, Hh1. bs. destruct i as [|i]; [by eexists|].
    destruct (lookup_lt_is_Some_2 a2 i) as [t' Ht']; [lia|]. destruct (lookup_lt_is_Some_2 b2 i) as [h' Hh']; [lia|].
    rewrite Ht', Hh'. bs. by eexists. }
  rewrite Hm. bs. unfold keep_element_of_vector_if. rewrite !inplace_filter_correct by lia. bs.
  eexists _, _. split; [done|]. split.
  { clear -Hl3. revert a2 b2 Hl3. induction bits as [|[] bits IH]; intros [|x a] [|y b] H; cbn in *; try done; [f_equal|]; apply IH; lia. }
  intros t h.
  assert (has_arc a2 b2 t h <-> has_arc rt rh t h \/ has_arc rt rh h t) as Hsym.
  { rewrite (perm_has_arc r (rt ++ rh) (rh ++ rt)) by done. split.
    - intros (i & Hi & Hi'). apply lookup_app_Some in Hi as [Hi|[Hge Hi]].
      + left. exists i. split; [done|]. rewrite lookup_app_l in Hi' by (apply lookup_lt_Some in Hi; lia). done.
      + right. exists (i - length rt). rewrite lookup_app_r in Hi' by lia. rewrite <- Hl in Hi'. done.
    - intros [(i & Hi & Hi')|(i & Hi & Hi')].
      + exists i. rewrite !lookup_app_l by (eapply lookup_lt_Some; eassumption). done.
      + exists (length rt + i). rewrite !lookup_app_r by lia. rewrite <- Hl.
        replace (length rt + i - length rt) with i by lia. done. }
  rewrite <- Hsym. split.
  - intros (i & Hk & Hi & Hi')%select_has_arc; [|done]. split; [|by exists i].
    apply Hbits in Hk as [_ Hk]. unfold sym_keep in Hk. rewrite Hi, Hi' in Hk. bs. destruct i as [|i].
    + cbn in Hk. simplify_eq. by apply bool_decide_eq_true in Hk.
    + destruct (a2 !! i), (b2 !! i); try done. cbn in Hk. simplify_eq. apply bool_decide_eq_true in Hk. naive_solver.
  - intros [Hne (i & Hi & Hi')]. destruct (sym_first _ _ _ _ _ Hi Hi') as (j & _ & Hj & Hj' & Hfirst).
    assert (bits !! j = Some true) as Hk.
    { apply Hbits. split; [by eapply lookup_lt_Some|]. unfold sym_keep. rewrite Hj, Hj'. bs. destruct j as [|j].
      - by rewrite bool_decide_true.
      - destruct (lookup_lt_is_Some_2 a2 j) as [t' Ht']; [apply lookup_lt_Some in Hj; lia|].
        destruct (lookup_lt_is_Some_2 b2 j) as [h' Hh']; [apply lookup_lt_Some in Hj'; lia|].
        rewrite Ht', Hh'. bs. rewrite bool_decide_true; [done|]. split; [|done].
        specialize (Hfirst j eq_refl). rewrite Ht', Hh' in Hfirst.
        destruct (decide (h = h')) as [<-|]; [|by left]. right. intros <-. by apply Hfirst. }
    destruct (select_local _ _ _ _ Hk Hj) as (x & Hx & Hx1). destruct (select_local _ _ _ _ Hk Hj') as (x' & Hx' & Hx1').
    simplify_eq. by exists x.
Qed.

(** ** The chordal supergraph *)
Lemma elem_of_unique x l : x ∈ unique l <-> x ∈ l.
Proof.
  induction l as [|a [|b l] IH]; [done..|]. change (unique (a :: b :: l)) with (if decide (a = b) then unique (b :: l) else a :: unique (b :: l)). case_decide as E.
  - subst b. rewrite IH. rewrite !elem_of_cons. naive_solver.
  - rewrite elem_of_cons, IH. rewrite (elem_of_cons (b :: l)). done.
Qed.
Lemma unique_sorted l : StronglySorted le l -> StronglySorted lt (unique l).
Proof.
  induction l as [|a [|b l] IH]; intros H; [constructor|repeat constructor|].
  change (unique (a :: b :: l)) with (if decide (a = b) then unique (b :: l) else a :: unique (b :: l)).
  apply StronglySorted_inv in H as [H Ha]. case_decide as E; [by apply IH|].
  constructor; [by apply IH|]. apply Forall_forall. intros x Hx. apply (elem_of_unique x (b :: l)) in Hx.
  apply Forall_cons in Ha as [Hab _]. apply StronglySorted_inv in H as [_ Hb].
  apply elem_of_cons in Hx as [->|Hx]; [lia|]. rewrite Forall_forall in Hb. specialize (Hb _ Hx). lia.
Qed.
Lemma lt_le_sorted l : StronglySorted lt l -> StronglySorted le l.
Proof. induction 1 as [|x l _ IH H]; constructor; [done|]. eapply Forall_impl; [exact H|]. cbn. lia. Qed.
Global Instance le_total : Total le.
Proof. intros x y. lia. Qed.

Lemma collect_upper_spec n tail head :
  length tail = length head -> (forall x, x ∈ tail -> x < n) ->
  exists nodes, collect_upper n tail head = Some nodes /\ length nodes = n /\
    forall x l, nodes !! x = Some l -> forall y, y ∈ l <-> x < y /\ has_arc tail head x y.
Proof.
  intros Hl Ht. unfold collect_upper.
  destruct (for_range_inv (fun i nodes => length nodes = n /\
      forall x l, nodes !! x = Some l -> forall y, y ∈ l <-> x < y /\ exists j, j < i /\ tail !! j = Some x /\ head !! j = Some y)
    (fun i nodes => t ← tail !! i; h ← head !! i;
       if decide (t < h) then l ← nodes !! t; wr nodes t (l ++ [h]) else Some nodes) 0 (length tail) (replicate n []))
    as (nodes & Hn & Hlen & HI).
  - lia.
  - split; [apply replicate_length|]. intros x l Hx y. apply lookup_replicate in Hx as [-> _]. split; [by intros ?%elem_of_nil|].
    intros (_ & j & ? & _). lia.
  - intros i nodes Hi (Hlen & HI). destruct (lookup_lt_is_Some_2 tail i) as [t Hti]; [lia|].
    destruct (lookup_lt_is_Some_2 head i) as [h Hhi]; [lia|]. rewrite Hti, Hhi. bs.
    assert (t < n) as Htn by (eapply Ht, elem_of_list_lookup_2; eauto).
    case_decide as Hth.
    + destruct (lookup_lt_is_Some_2 nodes t) as [l Hl']; [lia|]. rewrite Hl'. bs. rewrite wr_Some by lia.
      eexists. split; [done|]. rewrite insert_length. split; [done|]. intros x l2 Hx y.
      destruct (decide (x = t)) as [->|Hne].
      * rewrite list_lookup_insert in Hx by lia. simplify_eq. rewrite elem_of_app, elem_of_list_singleton, (HI _ _ Hl'). split.
        -- intros [(? & j & ? & ?)| ->]; (split; [done|]); [exists j|exists i]; (split; [lia|done]).
        -- intros (? & j & ? & Hj & Hj'). destruct (decide (j = i)) as [->|]; [right; congruence|].
           left. split; [done|]. exists j. split; [lia|done].
      * rewrite list_lookup_insert_ne in Hx by done. rewrite (HI _ _ Hx). split; intros (? & j & ? & Hj & Hj').
        -- split; [done|]. exists j. split; [lia|done].
        -- split; [done|]. exists j. split; [|done]. destruct (decide (j = i)) as [->|]; [congruence|lia].
    + eexists. split; [done|]. split; [done|]. intros x l Hx y. rewrite (HI _ _ Hx). split; intros (? & j & ? & Hj & Hj').
      * split; [done|]. exists j. split; [lia|done].
      * split; [done|]. exists j. split; [|done]. destruct (decide (j = i)) as [->|]; [|lia]. simplify_eq. lia.
  - exists nodes. split; [done|]. split; [done|]. intros x l Hx y. rewrite (HI _ _ Hx). split.
    + intros (? & j & _ & ?). split; [done|]. by exists j.
    + intros (? & j & Hj & ?). split; [done|]. exists j. split; [|done]. by eapply lookup_lt_Some.
Qed.
Lemma sort_upper_spec n nodes : length nodes = n ->
  exists nodes', sort_upper n nodes = Some nodes' /\ length nodes' = n /\
    forall x l', nodes' !! x = Some l' -> exists l, nodes !! x = Some l /\ StronglySorted lt l' /\ forall y, y ∈ l' <-> y ∈ l.
Proof.
  intros Hn. unfold sort_upper.
  destruct (for_range_inv (fun i nodes' => length nodes' = n /\
      forall x l', nodes' !! x = Some l' -> exists l, nodes !! x = Some l /\ (if decide (x < i) then StronglySorted lt l' /\ forall y, y ∈ l' <-> y ∈ l else l' = l))
    (fun x nodes => l ← nodes !! x; wr nodes x (unique (merge_sort (≤) l))) 0 n nodes) as (nodes' & He & Hlen & HI).
  - lia.
  - split; [done|]. intros x l Hx. exists l. split; [done|]. by rewrite decide_False by lia.
  - intros i s Hi (Hlen & HI). destruct (lookup_lt_is_Some_2 s i) as [l Hl]; [lia|]. rewrite Hl. bs. rewrite wr_Some by lia.
    eexists. split; [done|]. rewrite insert_length. split; [done|]. intros x l' Hx.
    destruct (decide (x = i)) as [->|Hne].
    + rewrite list_lookup_insert in Hx by lia. destruct (HI _ _ Hl) as (l0 & Hl0 & Hc). rewrite decide_False in Hc by lia. subst l0.
      exists l. split; [done|]. rewrite decide_True by lia. simplify_eq. split.
      * apply unique_sorted, Sorted_StronglySorted; [exact Nat.le_trans|]. apply Sorted_merge_sort. apply _.
      * intros y. rewrite elem_of_unique. by rewrite merge_sort_Permutation.
    + rewrite list_lookup_insert_ne in Hx by done. destruct (HI _ _ Hx) as (l0 & Hl0 & Hc). exists l0. split; [done|].
      destruct (decide (x < i)); [by rewrite decide_True by lia|by rewrite decide_False by lia].
  - exists nodes'. split; [done|]. split; [done|]. intros x l' Hx. destruct (HI _ _ Hx) as (l & Hl & Hc). exists l. split; [done|].
    rewrite decide_True in Hc; [done|]. apply lookup_lt_Some in Hx. lia.
Qed.

(** The state of the elimination loop before node [x]. *)
Record elim (n : nat) (E : nat -> nat -> Prop) (x : nat) (nodes : list (list nat)) (arcs : list (nat * nat)) : Prop := {
  el_len : length nodes = n;
  el_sorted : forall z l, nodes !! z = Some l -> StronglySorted lt l;
  el_range : forall z l y, nodes !! z = Some l -> y ∈ l -> z < y < n;
  el_adj : forall z l y, nodes !! z = Some l -> z < y -> E z y -> y ∈ l;
  el_lowest : forall z y r ly, z < x -> nodes !! z = Some (y :: r) -> nodes !! y = Some ly -> forall w, w ∈ r -> w ∈ ly;
  el_sound : forall z l y, nodes !! z = Some l -> y ∈ l -> exists k, gw (fun u v w => w = 0%N /\ E u v) (fun v => v < z) z y 0 k;
  el_arcs : forall t h, (t, h) ∈ arcs <-> t < x /\ exists l, nodes !! t = Some l /\ h ∈ l;
  el_nodup : NoDup arcs }.

Lemma gw_sym (E : nat -> nat -> Prop) (P : nat -> Prop) u v k : (forall u v, E u v -> E v u) ->
  gw (fun u v w => w = 0%N /\ E u v) P u v 0 k -> gw (fun u v w => w = 0%N /\ E u v) P v u 0 k.
Proof. intros HE H%gw_rev. eapply gw_sub; [|exact H]. intros ? ? ? [-> ?]. split; [done|]. by apply HE. Qed.

Lemma eliminate_step n (E : nat -> nat -> Prop) x nodes arcs :
  (forall u v, E u v -> E v u) -> x < n -> elim n E x nodes arcs ->
  exists nodes' arcs', eliminate_node x (nodes, arcs) = Some (nodes', arcs') /\ elim n E (S x) nodes' arcs'.
Proof.
  intros Hsym Hx [Hlen Hs Hr Ha Hlow Hsd Harcs Hnd]. unfold eliminate_node.
  destruct (lookup_lt_is_Some_2 nodes x) as [l Hl]; [lia|]. rewrite Hl. bs. destruct l as [|y r].
  { eexists _, _. split; [done|]. split; try done.
    - intros z y r ly Hz Hn. destruct (decide (z = x)) as [->|]; [congruence|]. apply (Hlow z y r ly); [lia|done].
    - intros t h. rewrite Harcs. split; intros (? & l & Hlt & ?); (split; [|by exists l]); [lia|].
      destruct (decide (t = x)) as [->|]; [|lia]. rewrite Hl in Hlt. simplify_eq. by apply elem_of_nil in H0. }
  destruct (Hr _ _ y Hl) as [Hxy Hyn]; [by left|].
  destruct (lookup_lt_is_Some_2 nodes y) as [ly Hly]; [lia|]. rewrite Hly. bs. rewrite wr_Some by lia. bs.
  rewrite list_lookup_insert_ne by lia. rewrite Hl. bs. eexists _, _. split; [done|].
  set (m := unique (list_merge (≤) r ly)).
  assert (forall w, w ∈ m <-> w ∈ r \/ w ∈ ly) as Hm.
  { intros w. unfold m. rewrite elem_of_unique. by rewrite merge_Permutation, elem_of_app. }
  pose proof (Hs _ _ Hl) as Hsl. apply StronglySorted_inv in Hsl as [Hsr Hyr]. rewrite Forall_forall in Hyr.
  assert (forall z l', <[y:=m]> nodes !! z = Some l' -> (z = y /\ l' = m) \/ (z <> y /\ nodes !! z = Some l')) as Hn.
  { intros z l' Hz. destruct (decide (z = y)) as [->|Hne].
    - rewrite list_lookup_insert in Hz by lia. left. naive_solver.
    - rewrite list_lookup_insert_ne in Hz by done. by right. }
  split.
  - by rewrite insert_length.
  - intros z l' [[-> ->]|[_ Hz]]%Hn; [|by eapply Hs]. apply unique_sorted, Sorted_StronglySorted; [exact Nat.le_trans|].
    apply Sorted_list_merge; [apply _|..]; apply StronglySorted_Sorted, lt_le_sorted; [done|by eapply Hs].
  - intros z l' w [[-> ->]|[_ Hz]]%Hn Hw; [|by eapply Hr]. apply Hm in Hw as [Hw|Hw]; [|by eapply Hr].
    specialize (Hyr _ Hw). destruct (Hr _ _ w Hl); [by right|]. lia.
  - intros z l' w [[-> ->]|[_ Hz]]%Hn Hlt He; [|by eapply Ha]. apply Hm. right. by eapply Ha.
  - intros z w r' lw Hz [[-> _]|[Hzy Hzl]]%Hn Hw v Hv; [lia|].
    apply Hn in Hw as [[-> ->]|[Hwy Hwl]].
    + destruct (decide (z = x)) as [->|Hzx].
      * rewrite Hl in Hzl. simplify_eq. apply Hm. by left.
      * apply Hm. right. eapply (Hlow z); [lia|done..].
    + destruct (decide (z = x)) as [->|Hzx].
      * rewrite Hl in Hzl. by simplify_eq.
      * eapply (Hlow z); [lia|done..].
  - intros z l' w [[-> ->]|[_ Hz]]%Hn Hw; [|by eapply Hsd]. apply Hm in Hw as [Hw|Hw]; [|by eapply Hsd].
    destruct (Hsd _ _ y Hl) as [k Hk]; [by left|]. destruct (Hsd _ _ w Hl) as [k' Hk']; [by right|].
    exists (k + k'). change 0%N with (0 + 0)%N. eapply (gw_app _ _ y x w).
    + eapply gw_mono; [|apply gw_sym; [done|exact Hk]]. cbn. lia.
    + exact Hxy.
    + eapply gw_mono; [|exact Hk']. cbn. lia.
  - intros t h. rewrite elem_of_app, Harcs. split.
    + intros [(Ht & l' & Hl' & Hh)|Hin].
      * split; [lia|]. exists l'. rewrite list_lookup_insert_ne by lia. done.
      * apply elem_of_list_fmap in Hin as (w & [= -> ->] & Hw). split; [lia|]. exists (y :: r). by rewrite list_lookup_insert_ne by lia.
    + intros (Ht & l' & Hl' & Hh). rewrite list_lookup_insert_ne in Hl' by lia. destruct (decide (t = x)) as [->|Htx].
      * right. apply elem_of_list_fmap. exists h. rewrite Hl in Hl'. by simplify_eq.
      * left. split; [lia|]. by exists l'.
  - apply NoDup_app. split; [done|]. split.
    + intros [t h] [Ht _]%Harcs (w & [= -> ->] & Hw)%elem_of_list_fmap. lia.
    + apply NoDup_fmap_2; [intros ? ? [=]; done|]. clear -Hs Hl. specialize (Hs _ _ Hl). clear Hl. revert Hs. generalize (y :: r) as l.
      induction 1 as [|a l _ IH Ha]; constructor; [|done]. intros Hin. rewrite Forall_forall in Ha. specialize (Ha _ Hin). lia.
Qed.

(** The upward arcs form a chordal graph containing the given one. *)
Record chordal (n : nat) (E : nat -> nat -> Prop) (U : nat -> nat -> Prop) : Prop := {
  ch_range : forall x y, U x y -> x < y < n;
  ch_adj : forall x y, x < y -> E x y -> U x y;
  ch_fill : forall x y z, U x y -> U x z -> y < z -> U y z;
  ch_sound : forall x y, U x y -> exists k, gw (fun u v w => w = 0%N /\ E u v) (fun v => v < x) x y 0 k }.

Lemma chordal_spec n st sh :
  length st = length sh -> (forall t h, has_arc st sh t h -> t < n /\ has_arc st sh h t) ->
  exists ut uh, compute_chordal_supergraph n st sh = Some (ut, uh) /\ length ut = length uh /\ distinct ut uh /\
    chordal n (has_arc st sh) (has_arc ut uh).
Proof.
  intros Hl Hsym. unfold compute_chordal_supergraph.
  destruct (collect_upper_spec n st sh) as (n1 & H1 & Hn1 & Hc1); [done| |].
  { intros x [i Hi]%elem_of_list_lookup_1. destruct (lookup_lt_is_Some_2 sh i) as [h Hh]; [apply lookup_lt_Some in Hi; lia|].
    apply (Hsym x h). by exists i. }
  rewrite H1. bs. destruct (sort_upper_spec n n1 Hn1) as (n2 & H2 & Hn2 & Hc2). rewrite H2. bs.
  destruct (for_range_inv (fun x '(nodes, arcs) => elim n (has_arc st sh) x nodes arcs) eliminate_node 0 n (n2, [])) as ([nodes arcs] & He & HI).
  - lia.
  - split; [done|..].
    + intros z l Hz. destruct (Hc2 _ _ Hz) as (l0 & _ & ? & _). done.
    + intros z l y Hz Hy. destruct (Hc2 _ _ Hz) as (l0 & Hl0 & _ & Hin). apply Hin in Hy. apply (Hc1 _ _ Hl0) in Hy as [Hlt Ha].
      split; [done|]. apply Hsym in Ha as [_ Ha]. by apply Hsym in Ha as [? _].
    + intros z l y Hz Hy Ha. destruct (Hc2 _ _ Hz) as (l0 & Hl0 & _ & Hin). apply Hin. by apply (Hc1 _ _ Hl0).
    + lia.
    + intros z l y Hz Hy. destruct (Hc2 _ _ Hz) as (l0 & Hl0 & _ & Hin). apply Hin in Hy. apply (Hc1 _ _ Hl0) in Hy as [Hlt Ha].
      exists 1. by constructor.
    + intros t h. split; [by intros ?%elem_of_nil|]. lia.
    + constructor.
  - intros x [nodes arcs] Hx HI. destruct (eliminate_step n (has_arc st sh) x nodes arcs) as (nodes' & arcs' & ? & ?); [|lia|done|].
    + intros u v Huv. by apply Hsym.
    + by exists (nodes', arcs').
  - rewrite He. bs. cbv iota. exists (map fst arcs), (map snd arcs). split; [done|]. rewrite !map_length. split; [done|].
    destruct HI as [Hlen Hs Hr Ha Hlow Hsd Harcs Hnd].
    assert (forall i t h, map fst arcs !! i = Some t /\ map snd arcs !! i = Some h <-> arcs !! i = Some (t, h)) as Hlk.
    { intros i t h. change (map fst arcs) with (fst <$> arcs). change (map snd arcs) with (snd <$> arcs). rewrite !list_lookup_fmap.
      destruct (arcs !! i) as [[a b]|]; cbn; naive_solver. }
    assert (forall t h, has_arc (map fst arcs) (map snd arcs) t h <-> exists l, nodes !! t = Some l /\ h ∈ l) as HU.
    { intros t h. trans ((t, h) ∈ arcs).
      - split.
        + intros (i & Hi). apply Hlk in Hi. by eapply elem_of_list_lookup_2.
        + intros [i Hi]%elem_of_list_lookup_1. exists i. by apply Hlk.
      - rewrite Harcs. split; [by intros [_ ?]|]. intros (l & Hl' & ?). split; [|by exists l]. apply lookup_lt_Some in Hl'. lia. }
    split.
    { intros i j t h Hi Hi' Hj Hj'. assert (arcs !! i = Some (t, h)) by (by apply Hlk). assert (arcs !! j = Some (t, h)) by (by apply Hlk).
      eapply NoDup_lookup; eauto. }
    split.
    + intros x y (l & Hx & Hy)%HU. by eapply Hr.
    + intros x y Hxy He2. apply HU. assert (x < n) by (by apply Hsym in He2 as [? _]).
      destruct (lookup_lt_is_Some_2 nodes x) as [l Hx]; [lia|]. exists l. split; [done|]. by eapply Ha.
    + cut (forall k x y z, n - x <= k -> has_arc (map fst arcs) (map snd arcs) x y -> has_arc (map fst arcs) (map snd arcs) x z -> y < z -> has_arc (map fst arcs) (map snd arcs) y z).
      { intros C x y z. by apply (C (n - x)). }
      induction k as [|k IH]; intros x y z Hk Hy Hz Hyz.
      { apply HU in Hy as (l & Hx & Hy). destruct (Hr _ _ _ Hx Hy). lia. }
      pose proof Hy as (l & Hx & Hyl)%HU. pose proof Hz as (l' & Hx' & Hzl)%HU. simplify_eq.
      destruct l as [|a r]; [by apply elem_of_nil in Hyl|]. destruct (Hr _ _ a Hx) as [Hxa Han]; [by left|].
      destruct (lookup_lt_is_Some_2 nodes a) as [la Hla]; [lia|].
      assert (forall w, w ∈ r -> w ∈ la) as Hra. { eapply (Hlow x a); [lia|done..]. }
      pose proof (Hs _ _ Hx) as [_ Har]%StronglySorted_inv. rewrite Forall_forall in Har.
      assert (z ∈ r) as Hzr. { apply elem_of_cons in Hzl as [->|?]; [|done]. apply elem_of_cons in Hyl as [->|Hyr]; [lia|]. specialize (Har _ Hyr). lia. }
      apply elem_of_cons in Hyl as [->|Hyr].
      * apply HU. exists la. split; [done|]. by apply Hra.
      * apply (IH a); [lia| |  |done]; apply HU; exists la; (split; [done|]); by apply Hra.
    + intros x y (l & Hx & Hy)%HU. by eapply Hsd.
Qed.

(** A chordal graph has an arc for every low walk. *)
Lemma chordal_complete n (E F : nat -> nat -> Prop) U u v L k :
  chordal n E U -> (forall x y, F x y -> x <> y -> E x y /\ E y x) -> u <> v ->
  gw (fun u v w => w = 0%N /\ F u v) (below u v) u v L k -> U (u `min` v) (u `max` v).
Proof.
  intros HC HF. revert u v L. induction (lt_wf k) as [k _ IH]. intros u v L Hne H.
  destruct (gw_split _ _ _ _ _ _ H) as [[[_ He] _]|(z & L1 & L2 & k1 & k2 & [Hzu Hzv] & H1 & H2 & _ & Hk)].
  - destruct (HF _ _ He Hne) as [? ?]. destruct (le_lt_dec u v).
    + rewrite Nat.min_l, Nat.max_r by lia. eapply ch_adj; [done|lia|done].
    + rewrite Nat.min_r, Nat.max_l by lia. eapply ch_adj; [done|lia|done].
  - pose proof (gw_pos _ _ _ _ _ _ H1). pose proof (gw_pos _ _ _ _ _ _ H2).
    assert (U z u) as Hu.
    { pose proof (IH k1 ltac:(lia) u z L1 ltac:(lia)) as C. rewrite Nat.min_r, Nat.max_l in C by lia. apply C.
      eapply gw_mono; [|exact H1]. unfold below. cbn. lia. }
    assert (U z v) as Hv.
    { pose proof (IH k2 ltac:(lia) z v L2 ltac:(lia)) as C. rewrite Nat.min_l, Nat.max_r in C by lia. apply C.
      eapply gw_mono; [|exact H2]. unfold below. cbn. lia. }
    destruct (le_lt_dec u v).
    + rewrite Nat.min_l, Nat.max_r by lia. eapply (ch_fill _ _ _ HC z); [done|done|lia].
    + rewrite Nat.min_r, Nat.max_l by lia. eapply (ch_fill _ _ _ HC z); [done|done|lia].
Qed.
