(** Proofs about GraphUtilModel. *)
From Verif Require Import Base PermutationModel SortModel GraphUtilModel UtilSpec GraphSpec PermutationProofs SortProofs.

(** ** find_arc *)
Lemma find_arc_loop_spec head y n xy :
  xy + n <= length head ->
  exists r, find_arc_loop head y n xy = Some r /\
    match r with
    | Some e => xy <= e < xy + n /\ head !! e = Some y /\ forall e', xy <= e' < e -> head !! e' <> Some y
    | None => forall e', xy <= e' < xy + n -> head !! e' <> Some y
    end.
Proof.
  revert xy. induction n as [|n IH]; intros xy Hle; cbn.
  - eexists. split; [done|]. cbn. lia.
  - destruct (lookup_lt_is_Some_2 head xy) as [h Hh]; [lia|]. rewrite Hh; cbn. case_decide as E.
    + subst. eexists. split; [done|]. cbn. split; [lia|]. split; [done|]. lia.
    + destruct (IH (S xy)) as (r & -> & Hr); [lia|]. exists r. split; [done|]. destruct r as [e|].
      * destruct Hr as (? & ? & Hmin). split; [lia|]. split; [done|]. intros e' He'.
        destruct (decide (e' = xy)) as [->|]; [congruence|]. apply Hmin; lia.
      * intros e' He'. destruct (decide (e' = xy)) as [->|]; [congruence|]. apply Hr; lia.
Qed.

Lemma find_arc_or_return_invalid_correct n fo head x y :
  csr n fo head -> x < n -> y < n ->
  exists r, find_arc_or_return_invalid fo head x y = Some r /\
    match r with
    | Some e => arc_from_to fo head x y e /\ forall e', arc_from_to fo head x y e' -> e <= e'
    | None => forall e', ~ arc_from_to fo head x y e'
    end.
Proof.
  intros H Hx Hy. unfold find_arc_or_return_invalid.
  destruct (csr_range _ _ _ _ H Hx) as (lo & hi & Hlo & Hhi & Hle).
  rewrite (csr_len _ _ _ H). rewrite !bool_decide_eq_true_2 by lia. cbn [chk]. rewrite !bind_S, Hlo, bind_S, Hhi, bind_S.
  destruct (find_arc_loop_spec head y (hi - lo) lo) as (r & -> & Hr); [lia|].
  exists r. split; [done|]. destruct r as [e|].
  - destruct Hr as (He & Hh & Hmin). split.
    + split; [exists lo, hi; repeat split; [done..|lia|lia]|done].
    + intros e' [(lo' & hi' & ? & ? & ?) Hh']. simplify_eq.
      destruct (decide (e <= e')); [done|]. exfalso. apply (Hmin e'); [lia|done].
  - intros e' [(lo' & hi' & ? & ? & ?) Hh']. simplify_eq. apply (Hr e'); [lia|done].
Qed.

Lemma lower_bound_loop_spec head y fuel first len :
  len <= fuel -> first + len <= length head ->
  (forall i j a b, first <= i -> i <= j -> j < first + len -> head !! i = Some a -> head !! j = Some b -> a <= b) ->
  exists pos, lower_bound_loop head y fuel first len = Some pos /\ first <= pos <= first + len /\
    (forall i a, first <= i < pos -> head !! i = Some a -> a < y) /\
    (forall i a, pos <= i < first + len -> head !! i = Some a -> y <= a).
Proof.
  revert first len. induction fuel as [|fuel IH]; intros first len Hf Hl Hs; cbn.
  - exists first. split; [done|]. split; [lia|]. split; lia.
  - case_decide as E; [exists first; split; [done|]; split; [lia|]; split; lia|].
    pose proof (Nat.div_lt len 2 ltac:(lia) ltac:(lia)) as Hhalf.
    change (Nat.divmod len 1 0 1) with (Nat.divmod len 1 0 1). 
    set (half := fst (Nat.divmod len 1 0 1)) in *. change (len / 2) with half in Hhalf.
    destruct (lookup_lt_is_Some_2 head (first + half)) as [h Hh]; [lia|]. rewrite Hh; cbn. case_decide as Hc.
    + destruct (IH (first + half + 1) (len - half - 1)) as (pos & -> & Hp & Hlo & Hhi); [lia..| |].
      * intros i j a b ? ? ?. apply Hs; lia.
      * exists pos. split; [done|]. split; [lia|]. split.
        -- intros i a Hi Ha. destruct (decide (first + half + 1 <= i)); [eapply Hlo; [|done]; lia|].
           assert (a <= h) by (eapply (Hs i (first + half)); [..|exact Ha|exact Hh]; lia). lia.
        -- intros i a Hi. apply Hhi; lia.
    + destruct (IH first half) as (pos & -> & Hp & Hlo & Hhi); [lia..| |].
      * intros i j a b ? ? ?. apply Hs; lia.
      * exists pos. split; [done|]. split; [lia|]. split; [done|].
        intros i a Hi Ha. destruct (decide (i < first + half)); [eapply Hhi; [|done]; lia|].
        assert (h <= a) by (eapply (Hs (first + half) i); [..|exact Hh|exact Ha]; lia). lia.
Qed.


Lemma find_arc_given_sorted_head_correct n fo head x y :
  csr n fo head -> heads_sorted fo head -> x < n -> y < n ->
  find_arc_or_return_invalid_given_sorted_head fo head x y = find_arc_or_return_invalid fo head x y.
Proof.
  intros H Hs Hx Hy.
  destruct (find_arc_or_return_invalid_correct n fo head x y H Hx Hy) as (r & -> & Hr).
  unfold find_arc_or_return_invalid_given_sorted_head.
  destruct (csr_range _ _ _ _ H Hx) as (lo & hi & Hlo & Hhi & Hle).
  rewrite (csr_len _ _ _ H). rewrite !bool_decide_eq_true_2 by lia. cbn [chk]. rewrite !bind_S, Hlo, bind_S, Hhi, bind_S.
  assert (forall e, lo <= e < hi -> out_arc fo x e) as Hout by (intros e He; exists lo, hi; done).
  destruct (lower_bound_loop_spec head y (hi - lo) lo (hi - lo)) as (pos & -> & Hp & Hlt & Hge); [lia..| |].
  { intros i j a b ? ? ?. apply (Hs x); [apply Hout; lia|apply Hout; lia|done]. }
  rewrite bind_S. case_decide as E.
  - destruct r as [e|]; [|done]. exfalso. destruct Hr as [[(lo' & hi' & ? & ? & ?) Hh] _]. simplify_eq.
    assert (y < y) by (eapply Hlt; [|exact Hh]; lia). lia.
  - destruct (lookup_lt_is_Some_2 head pos) as [h Hh]; [lia|]. rewrite Hh, bind_S. case_decide as Hne.
    + destruct r as [e|]; [|done]. exfalso. destruct Hr as [[(lo' & hi' & ? & ? & ?) Hhe] _]. simplify_eq.
      destruct (decide (e < pos)).
      * assert (y < y) by (eapply Hlt; [|exact Hhe]; lia). lia.
      * assert (y <= h) by (eapply Hge; [|exact Hh]; lia).
        assert (h <= y).
        { eapply (Hs x pos e); [apply Hout; lia|apply Hout; lia|lia|exact Hh|exact Hhe]. }
        lia.
    + assert (h = y) as -> by (destruct (decide (h = y)); tauto). 
      assert (arc_from_to fo head x y pos) as Harc by (split; [apply Hout; lia|done]).
      destruct r as [e|]; [|exfalso; by eapply Hr]. destruct Hr as [[Ho Hhe] Hmin].
      specialize (Hmin _ Harc). f_equal. f_equal.
      destruct (decide (e < pos)); [|lia]. exfalso. destruct Ho as (lo' & hi' & ? & ? & ?). simplify_eq.
      assert (y < y) by (eapply Hlt; [|exact Hhe]; lia). lia.
Qed.

(** ** node path -> arc path *)
Lemma convert_node_path_correct n fo head path :
  csr n fo head -> (forall x, x ∈ path -> x < n) ->
  (forall i x y, path !! i = Some x -> path !! S i = Some y -> exists e, arc_from_to fo head x y e) ->
  exists r, convert_node_path_to_arc_path fo head path = Some r /\
    length r = length path - 1 /\
    forall i x y, path !! i = Some x -> path !! S i = Some y ->
      exists e, r !! i = Some e /\ arc_from_to fo head x y e /\ (forall e', arc_from_to fo head x y e' -> e <= e').
Proof.
  intros H Hb Hconn. destruct path as [|p0 path'] eqn:Ep.
  { eexists. split; [done|]. split; [done|]. done. }
  rewrite <- Ep in *. assert (0 < length path) by (rewrite Ep; cbn; lia).
  assert (convert_node_path_to_arc_path fo head path =
      (path ← for_range 0 (length path - 1)
        (fun i path =>
           x ← path !! i; y ← path !! S i;
           lo ← fo !! x; hi ← fo !! S x;
           r ← find_arc_loop head y (hi - lo) lo;
           xy ← r;
           wr path i xy) path;
      Some (take (length path - 1) path))) as -> by (rewrite Ep; done).
  destruct (for_range_inv
    (fun i r => length r = length path /\ (forall j, i <= j -> r !! j = path !! j) /\
       forall j x y, j < i -> path !! j = Some x -> path !! S j = Some y ->
       exists e, r !! j = Some e /\ arc_from_to fo head x y e /\ (forall e', arc_from_to fo head x y e' -> e <= e'))
    (fun i path =>
           x ← path !! i; y ← path !! S i;
           lo ← fo !! x; hi ← fo !! S x;
           r ← find_arc_loop head y (hi - lo) lo;
           xy ← r;
           wr path i xy) 0 (length path - 1) path) as (r & -> & Hlen & _ & Hinv).
  - lia.
  - split; [done|]. split; [done|]. lia.
  - intros i r Hi (Hlen & Hrest & Hinv).
    destruct (lookup_lt_is_Some_2 path i) as [x Hx]; [lia|].
    destruct (lookup_lt_is_Some_2 path (S i)) as [y Hy]; [lia|].
    rewrite !Hrest, Hx, bind_S, Hy, bind_S by lia.
    assert (x < n) as Hxn by (apply Hb; by eapply elem_of_list_lookup_2).
    destruct (csr_range _ _ _ _ H Hxn) as (lo & hi & Hlo & Hhi & Hle).
    rewrite Hlo, bind_S, Hhi, bind_S.
    destruct (find_arc_loop_spec head y (hi - lo) lo) as (r' & -> & Hr); [lia|]. rewrite bind_S.
    destruct (Hconn i x y Hx Hy) as (e0 & (lo0 & hi0 & ? & ? & ?) & He0). simplify_eq.
    destruct r' as [e|]; [|exfalso; apply (Hr e0); [lia|done]]. destruct Hr as (He & Hh & Hmin). rewrite bind_S.
    rewrite wr_Some by lia. eexists. split; [done|]. split; [len|]. split.
    + intros j Hj. rewrite list_lookup_insert_ne by lia. apply Hrest; lia.
    + intros j x' y' Hj Hx' Hy'. destruct (decide (i = j)) as [<-|].
      * simplify_eq. exists e. rewrite list_lookup_insert by lia. split; [done|].
        split; [split; [exists lo, hi; repeat split; [done..|lia|lia]|done]|].
        intros e' [(lo' & hi' & ? & ? & ?) Hh']. simplify_eq.
        destruct (decide (e <= e')); [done|]. exfalso. apply (Hmin e'); [lia|done].
      * rewrite list_lookup_insert_ne by done. apply Hinv; [lia|done..].
  - rewrite bind_S. eexists. split; [done|]. rewrite Hlen. split; [len|].
    intros i x y Hx Hy. pose proof (lookup_lt_Some _ _ _ Hy).
    destruct (Hinv i x y ltac:(lia) Hx Hy) as (e & He & ?). exists e. rewrite lookup_take by lia. done.
Qed.

(** ** arc path -> node path *)
Lemma convert_arc_path_loop_spec head i path :
  i < length path ->
  (forall j a, 1 <= j < i -> path !! j = Some a -> a < length head) ->
  exists r, convert_arc_path_loop head i path = Some r /\ length r = length path /\
    (forall j a, 2 <= S j <= i -> 1 <= j -> path !! j = Some a -> r !! S j = head !! a) /\
    (forall j, j < 2 \/ i < j -> r !! j = path !! j).
Proof.
  revert path. induction i as [|i IH]; intros path Hi Hb.
  { exists path. cbn. split; [done|]. split; [done|]. split; [lia|done]. }
  destruct i as [|i].
  { exists path. cbn. split; [done|]. split; [done|]. split; [lia|done]. }
  cbn [convert_arc_path_loop].
  destruct (lookup_lt_is_Some_2 path (S i)) as [a Ha]; [lia|]. rewrite Ha, bind_S.
  destruct (lookup_lt_is_Some_2 head a) as [h Hh]; [eapply (Hb (S i)); [lia|done]|]. rewrite Hh, bind_S.
  rewrite wr_Some, bind_S by lia.
  destruct (IH (<[S (S i):=h]> path)) as (r & Hr & Hl & Hin & Hout).
  - len.
  - intros j b Hj Hjb. rewrite list_lookup_insert_ne in Hjb by lia. eapply Hb; [|done]. lia.
  - exists r. split; [exact Hr|]. split; [rewrite Hl; len|]. split.
    + intros j b Hj Hj1 Hjb. destruct (decide (j = S i)) as [->|].
      * rewrite Hout by lia. rewrite list_lookup_insert by lia. congruence.
      * apply Hin; [lia|lia|]. rewrite list_lookup_insert_ne by lia. done.
    + intros j Hj. rewrite Hout by lia. rewrite list_lookup_insert_ne by lia. done.
Qed.

Lemma convert_arc_path_correct source head path :
  path <> [] -> (forall a, a ∈ path -> a < length head) ->
  exists r, convert_arc_path_to_node_path source head path = Some r /\
    length r = S (length path) /\ r !! 0 = Some source /\
    (forall i a, 1 <= i -> path !! i = Some a -> r !! S i = head !! a).
Proof.
  intros Hne Hb. destruct path as [|p0 path'] eqn:Ep; [done|]. rewrite <- Ep in *.
  assert (0 < length path) by (rewrite Ep; cbn; lia).
  assert (convert_arc_path_to_node_path source head path =
     (path ← convert_arc_path_loop head (length path) (path ++ [0]); wr path 0 source)) as -> by (rewrite Ep; done).
  destruct (convert_arc_path_loop_spec head (length path) (path ++ [0])) as (r & -> & Hl & Hin & Hout).
  - len. cbn. lia.
  - intros j a Hj Ha. rewrite lookup_app_l in Ha by lia. apply Hb. by eapply elem_of_list_lookup_2.
  - rewrite bind_S. rewrite app_length in Hl. cbn in Hl. rewrite wr_Some by lia. eexists. split; [done|].
    split; [len|]. split; [rewrite list_lookup_insert by lia; done|].
    intros i a Hi Ha. rewrite list_lookup_insert_ne by lia. pose proof (lookup_lt_Some _ _ _ Ha).
    apply Hin; [lia|lia|]. rewrite lookup_app_l by lia. done.
Qed.

(** ** lexicographic sort *)
Lemma perm_of_ssp {T} (key : T -> nat) v p : stable_sort_perm key v p -> perm p /\ length p = length v.
Proof.
  intros [Hp _]. assert (length p = length v) as Hl by (rewrite Hp; len).
  split; [unfold perm; by rewrite Hl|done].
Qed.

Lemma lex_chain a b p q a' r :
  length a = length b ->
  stable_sort_perm id b p -> permuted_by p a a' -> stable_sort_perm id a' q ->
  chain_permutation_first_left_then_right p q = Some r ->
  lex_sort_perm a b r.
Proof.
  intros Hl Hp [Hla Ha'] Hq Hr.
  pose proof (perm_of_ssp _ _ _ Hp) as [Hpp Hpl]. pose proof (perm_of_ssp _ _ _ Hq) as [Hqp Hql].
  destruct (chain_correct p q Hpp Hqp) as (r' & Er & Hrp & Hrl & Hpt); [lia|]. simplify_eq.
  split; [unfold perm in Hrp; by rewrite Hrl, Hpl, <- Hl in Hrp|].
  intros i j x y ax bx ay bY Hij Hx Hy Hax Hay Hbx Hby.
  assert (i < length r) by (by eapply lookup_lt_Some). assert (j < length r) by (by eapply lookup_lt_Some).
  destruct (lookup_lt_is_Some_2 q i) as [qi Hqi]; [lia|]. destruct (lookup_lt_is_Some_2 q j) as [qj Hqj]; [lia|].
  rewrite (Hpt _ _ Hqi) in Hx. rewrite (Hpt _ _ Hqj) in Hy.
  destruct Hq as [_ Hq]. destruct Hp as [_ Hp].
  specialize (Hq i j qi qj ax ay Hij Hqi Hqj).
  rewrite (Ha' _ _ Hx), (Ha' _ _ Hy) in Hq. specialize (Hq Hax Hay). cbn in Hq.
  destruct Hq as [?|[? Hlt]]; [auto|].
  specialize (Hp qi qj x y bx bY Hlt Hx Hy Hbx Hby). cbn in Hp. lia.
Qed.

Lemma permuted_by_bounded (p : list nat) (a a' : list nat) n :
  perm p -> length p = length a -> permuted_by p a a' -> (forall x, x ∈ a -> x < n) -> forall x, x ∈ a' -> x < n.
Proof.
  intros Hp Hl Hby Hb x Hx. apply Hb. by rewrite <- (permuted_by_Permutation p a a' Hp Hl Hby).
Qed.

Lemma sorted_by_perm (v r p : list nat) : stable_sort_perm id v p -> permuted_by p v r -> Sorted le r.
Proof.
  intros Hs [Hl Hby]. pose proof (perm_of_ssp _ _ _ Hs) as [Hpp Hpl]. destruct Hs as [_ Hs].
  apply StronglySorted_Sorted.
  assert (forall i j x y, i < j -> r !! i = Some x -> r !! j = Some y -> x <= y) as Hle.
  { intros i j x y Hij Hx Hy.
    destruct (lookup_lt_is_Some_2 p i) as [a Ha]; [apply lookup_lt_Some in Hx; lia|].
    destruct (lookup_lt_is_Some_2 p j) as [b Hb]; [apply lookup_lt_Some in Hy; lia|].
    rewrite (Hby _ _ Ha) in Hx. rewrite (Hby _ _ Hb) in Hy.
    specialize (Hs i j a b x y Hij Ha Hb Hx Hy). cbn in Hs. lia. }
  clear -Hle. induction r as [|x r IH]; constructor.
  - apply IH. intros i j a b Hij Ha Hb. apply (Hle (S i) (S j)); [lia|done..].
  - rewrite Forall_forall. intros y [j Hj]%elem_of_list_lookup_1. apply (Hle 0 (S j)); [lia|done..].
Qed.

Lemma assert_sorted_ok asserts a : Sorted le a -> assert_sorted asserts a = Some tt.
Proof.
  intros Hs. unfold assert_sorted. destruct asserts; [|done].
  assert (is_sorted_using_key id a = true) as -> by (by apply is_sorted_using_key_correct). done.
Qed.

Lemma compute_sort_permutation_lex_correct ac a bc b :
  length a = length b -> (forall x, x ∈ a -> x < ac) -> (forall x, x ∈ b -> x < bc) ->
  exists r, compute_sort_permutation_first_by_left_then_by_right false ac a bc b = Some r /\ lex_sort_perm a b r.
Proof.
  intros Hl Ha Hb. unfold compute_sort_permutation_first_by_left_then_by_right.
  destruct (compute_stable_sort_permutation_correct id b bc Hb) as (p & -> & Hp). rewrite bind_S.
  pose proof (perm_of_ssp _ _ _ Hp) as [Hpp Hpl].
  destruct (apply_permutation_correct p a Hpp) as (a' & -> & Hby); [lia|]. rewrite bind_S.
  destruct (compute_stable_sort_permutation_correct id a' ac) as (q & -> & Hq).
  { eapply permuted_by_bounded; [done| |done|done]. lia. }
  rewrite bind_S. cbn [assert_sorted]. rewrite bind_S.
  pose proof (perm_of_ssp _ _ _ Hq) as [Hqp Hql]. destruct Hby as [Hby1 Hby2].
  destruct (chain_correct p q Hpp Hqp) as (r & Er & _); [lia|].
  exists r. split; [done|]. eapply lex_chain; [done|done| |done|done]. done.
Qed.

Lemma compute_sort_permutation_lex_apply_correct asserts ac a bc b :
  length a = length b -> (forall x, x ∈ a -> x < ac) -> (forall x, x ∈ b -> x < bc) ->
  exists r a2, compute_sort_permutation_first_by_left_then_by_right_and_apply_sort_to_left asserts ac a bc b = Some (r, a2)
    /\ lex_sort_perm a b r /\ permuted_by r a a2 /\ Sorted le a2.
Proof.
  intros Hl Ha Hb. unfold compute_sort_permutation_first_by_left_then_by_right_and_apply_sort_to_left.
  destruct (compute_stable_sort_permutation_correct id b bc Hb) as (p & -> & Hp). rewrite bind_S.
  pose proof (perm_of_ssp _ _ _ Hp) as [Hpp Hpl].
  destruct (apply_permutation_correct p a Hpp) as (a' & E1 & Hby); [lia|]. rewrite E1, bind_S.
  destruct (compute_stable_sort_permutation_correct id a' ac) as (q & -> & Hq).
  { eapply permuted_by_bounded; [done| |done|done]. lia. }
  rewrite bind_S.
  pose proof (perm_of_ssp _ _ _ Hq) as [Hqp Hql].
  destruct (apply_permutation_correct q a' Hqp) as (a2 & E2 & Hby2); [lia|]. rewrite E2, bind_S.
  pose proof (sorted_by_perm _ _ _ Hq Hby2) as Hsorted.
  rewrite assert_sorted_ok by done. rewrite bind_S.
  assert (length a' = length p) by (by destruct Hby).
  destruct (chain_correct p q Hpp Hqp) as (r & Er & Hrp & Hrl & _); [lia|]. rewrite Er, bind_S.
  exists r, a2. split; [done|]. split; [by eapply lex_chain|]. split; [|done].
  assert (apply_permutation r a = Some a2) as E3.
  { eapply (apply_chain p q); [done|done|lia|lia|done..]. }
  destruct (apply_permutation_correct r a Hrp) as (a3 & E4 & ?); [lia|]. by simplify_eq.
Qed.

(** Inverse variants compute the inverse of the same permutation. *)
Lemma chain_inverse p q pi qi r :
  perm p -> perm q -> length p = length q -> inverse_of p pi -> inverse_of q qi ->
  chain_permutation_first_left_then_right p q = Some r ->
  exists ri, chain_permutation_first_left_then_right qi pi = Some ri /\ inverse_of r ri.
Proof.
  intros Hp Hq Hl Hpi Hqi Hr.
  destruct (chain_correct p q Hp Hq Hl) as (r' & Er & Hrp & Hrl & Hpt). simplify_eq.
  pose proof (inverse_of_perm _ _ Hp Hpi) as Hpip. pose proof (inverse_of_perm _ _ Hq Hqi) as Hqip.
  destruct Hpi as [Hpil Hpi]. destruct Hqi as [Hqil Hqi].
  destruct (chain_correct qi pi Hqip Hpip) as (ri & Eri & Hrip & Hril & Hpti); [lia|].
  exists ri. split; [done|]. split; [lia|]. intros i x. split.
  - intros Hx. destruct (lookup_lt_is_Some_2 q i) as [y Hy]; [apply lookup_lt_Some in Hx; lia|].
    rewrite (Hpt _ _ Hy) in Hx. apply Hpi in Hx. rewrite (Hpti _ _ Hx). by apply Hqi.
  - intros Hx. destruct (lookup_lt_is_Some_2 pi x) as [y Hy]; [apply lookup_lt_Some in Hx; lia|].
    rewrite (Hpti _ _ Hy) in Hx. apply Hqi in Hx. rewrite (Hpt _ _ Hx). by apply Hpi.
Qed.

Lemma apply_inverse_permuted {T} `{Inhabited T} p q (v r : list T) :
  perm p -> inverse_of p q -> length q = length v ->
  apply_inverse_permutation q v = Some r -> permuted_by p v r.
Proof.
  intros Hp Hi Hl Hr. pose proof (inverse_of_perm _ _ Hp Hi) as Hq.
  destruct (apply_inverse_permutation_correct q v Hq Hl) as (r' & E & Hlr & Hl' & Hby). simplify_eq.
  destruct Hi as [Hlq Hi]. split; [lia|]. intros i x Hx. apply Hi in Hx. symmetry. by apply Hby.
Qed.

Lemma compute_inverse_sort_permutation_lex_correct ac a bc b :
  length a = length b -> (forall x, x ∈ a -> x < ac) -> (forall x, x ∈ b -> x < bc) ->
  exists r ri, compute_inverse_sort_permutation_first_by_left_then_by_right false ac a bc b = Some ri /\
    lex_sort_perm a b r /\ inverse_of r ri.
Proof.
  intros Hl Ha Hb. unfold compute_inverse_sort_permutation_first_by_left_then_by_right.
  destruct (compute_inverse_stable_sort_permutation_correct id b bc Hb) as (pi & p & -> & Hpi & Hpip & Hp). rewrite bind_S.
  pose proof (perm_of_ssp _ _ _ Hp) as [Hpp Hpl]. assert (length pi = length p) by (by destruct Hpi).
  destruct (apply_inverse_permutation_correct pi a Hpip) as (a' & E1 & _); [lia|]. rewrite E1, bind_S.
  assert (permuted_by p a a') as Hby by (eapply apply_inverse_permuted; [done|done| |done]; lia).
  destruct (compute_inverse_stable_sort_permutation_correct id a' ac) as (qi & q & -> & Hqi & Hqip & Hq).
  { eapply (permuted_by_bounded p); [done| |done|done]. lia. }
  rewrite bind_S. cbn [assert_sorted]. rewrite bind_S.
  pose proof (perm_of_ssp _ _ _ Hq) as [Hqp Hql]. assert (length a' = length p) by (by destruct Hby).
  destruct (chain_correct p q Hpp Hqp) as (r & Er & _); [lia|].
  destruct (chain_inverse p q pi qi r) as (ri & Eri & Hri); [done|done|lia|done..|].
  exists r, ri. split; [done|]. split; [|done]. by eapply lex_chain.
Qed.

Lemma compute_inverse_sort_permutation_lex_apply_correct asserts ac a bc b :
  length a = length b -> (forall x, x ∈ a -> x < ac) -> (forall x, x ∈ b -> x < bc) ->
  exists r ri a2, compute_inverse_sort_permutation_first_by_left_then_by_right_and_apply_sort_to_left asserts ac a bc b = Some (ri, a2)
    /\ lex_sort_perm a b r /\ inverse_of r ri /\ permuted_by r a a2 /\ Sorted le a2.
Proof.
  intros Hl Ha Hb. unfold compute_inverse_sort_permutation_first_by_left_then_by_right_and_apply_sort_to_left.
  destruct (compute_inverse_stable_sort_permutation_correct id b bc Hb) as (pi & p & -> & Hpi & Hpip & Hp). rewrite bind_S.
  pose proof (perm_of_ssp _ _ _ Hp) as [Hpp Hpl]. assert (length pi = length p) by (by destruct Hpi).
  destruct (apply_inverse_permutation_correct pi a Hpip) as (a' & E1 & _); [lia|]. rewrite E1, bind_S.
  assert (permuted_by p a a') as Hby by (eapply apply_inverse_permuted; [done|done| |done]; lia).
  destruct (compute_inverse_stable_sort_permutation_correct id a' ac) as (qi & q & -> & Hqi & Hqip & Hq).
  { eapply (permuted_by_bounded p); [done| |done|done]. lia. }
  rewrite bind_S.
  pose proof (perm_of_ssp _ _ _ Hq) as [Hqp Hql]. assert (length a' = length p) by (by destruct Hby).
  assert (length qi = length q) by (by destruct Hqi).
  destruct (apply_inverse_permutation_correct qi a' Hqip) as (a2 & E2 & _); [lia|]. rewrite E2, bind_S.
  assert (permuted_by q a' a2) as Hby2 by (eapply apply_inverse_permuted; [done|done| |done]; lia).
  pose proof (sorted_by_perm _ _ _ Hq Hby2) as Hsorted.
  rewrite assert_sorted_ok by done. rewrite bind_S.
  destruct (chain_correct p q Hpp Hqp) as (r & Er & Hrp & Hrl & Hpt); [lia|].
  destruct (chain_inverse p q pi qi r) as (ri & Eri & Hri); [done|done|lia|done..|]. rewrite Eri, bind_S.
  exists r, ri, a2. split; [done|]. split; [by eapply lex_chain|]. split; [done|]. split; [|done].
  destruct Hby as [_ Hby]. destruct Hby2 as [Hl2 Hby2]. split; [lia|]. intros i x Hx.
  destruct (lookup_lt_is_Some_2 q i) as [y Hy]; [apply lookup_lt_Some in Hx; lia|].
  rewrite (Hby2 _ _ Hy). apply Hby. by rewrite <- (Hpt _ _ Hy).
Qed.

(** ** Witnesses *)
Lemma lex_assertion_fails : exists n tail head,
  length tail = length head /\ (forall x, x ∈ tail -> x < n) /\ (forall x, x ∈ head -> x < n) /\
  compute_sort_permutation_first_by_tail_then_by_head true n tail head = None /\
  compute_inverse_sort_permutation_first_by_tail_then_by_head true n tail head = None.
Proof.
  exists 2, [1;0], [0;1]. split; [done|]. split; [intros x; set_unfold; lia|]. split; [intros x; set_unfold; lia|]. done.
Qed.

Lemma arc_path_conversion_wrong : ~ (forall source head path nodes,
  (forall a, a ∈ path -> a < length head) ->
  nodes = source :: ((fun a => head !!! a) <$> path) ->
  convert_arc_path_to_node_path source head path = Some nodes).
Proof.
  intros H. specialize (H 0 [1] [0] [0;1]).
  change (convert_arc_path_to_node_path 0 [1] [0]) with (Some [0;0]) in H.
  assert (Some [0;0] = Some [0;1]); [|done]. apply H; [|done]. cbn.
  intros a Ha. rewrite elem_of_list_singleton in Ha. lia.
Qed.

Lemma arc_path_conversion_empty : exists source head,
  convert_arc_path_to_node_path source head [] = Some [].
Proof. exists 0, []. done. Qed.
