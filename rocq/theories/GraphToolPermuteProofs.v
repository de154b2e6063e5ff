From Verif Require Import Base UtilSpec GraphSpec PathSpec ProtobufModel VectorIoModel ChFileModel PermutationModel SortModel GraphUtilModel PermutationProofs SortProofs GraphUtilProofs
  VerifyModel VerifySpec VerifyProofs DistanceToolModel DistanceToolSpec DistanceToolProofs GraphToolModel GraphToolSpec GraphToolProofs WalkSpec.
Ltac Zify.zify_post_hook ::= idtac.

Definition sorts (std_sort : (nat -> nat -> bool) -> list nat -> list nat) : Prop := forall v : list nat, sort_perm id v (std_sort (key_less id v) (seq 0 (length v))).

Lemma ssp_sp {T} (key : T -> nat) v p : stable_sort_perm key v p -> sort_perm key v p.
Proof. intros [H1 H2]. split; [done|]. intros i j a b x y Hij Ha Hb Hx Hy. specialize (H2 i j a b x y Hij Ha Hb Hx Hy). lia. Qed.
Lemma inverse_sort_spec std_sort v kc : sorts std_sort -> (forall x, x ∈ v -> x < kc) ->
  exists q p, compute_inverse_sort_permutation_using_key std_sort v kc = Some q /\ inverse_of p q /\ perm q /\ perm p /\ length p = length v /\ sort_perm id v p.
Proof.
  intros Hs Hb. unfold compute_inverse_sort_permutation_using_key. destruct (use_bucket_sort v kc) eqn:E.
  - destruct (compute_inverse_stable_sort_permutation_correct id v kc Hb) as (q & p & Eq & H1 & H2 & H3). unfold compute_inverse_stable_sort_permutation_using_key in Eq. rewrite E in Eq. rewrite Eq.
    pose proof (perm_of_ssp _ _ _ H3) as [? ?]. exists q, p. split; [done|]. split; [done|]. split; [done|]. split; [done|]. split; [done|]. by apply ssp_sp.
  - specialize (Hs v). set (p := std_sort _ _) in *. assert (length p = length v) as Hl by (destruct Hs as [-> _]; apply seq_length). assert (perm p) as Hp by (unfold perm; rewrite Hl; apply Hs).
    destruct (invert_permutation_correct p Hp) as (q & -> & H1 & H2). by exists q, p.
Qed.
Lemma chain_sorted a b p q a' r : length a = length b -> sort_perm id b p -> perm p -> permuted_by p a a' -> stable_sort_perm id a' q -> chain_permutation_first_left_then_right p q = Some r ->
  forall i j x y ax bx ay bY, i < j -> r !! i = Some x -> r !! j = Some y -> a !! x = Some ax -> a !! y = Some ay -> b !! x = Some bx -> b !! y = Some bY -> ax < ay \/ (ax = ay /\ bx <= bY).
Proof.
  intros Hl Hp Hpp [Hla Ha'] Hq Hr. pose proof (perm_of_ssp _ _ _ Hq) as [Hqp Hql]. destruct (chain_correct p q Hpp Hqp) as (r' & Er & Hrp & Hrl & Hpt); [lia|]. simplify_eq.
  intros i j x y ax bx ay bY Hij Hx Hy Hax Hay Hbx Hby. assert (i < length r) by (by eapply lookup_lt_Some). assert (j < length r) by (by eapply lookup_lt_Some).
  destruct (lookup_lt_is_Some_2 q i) as [qi Hqi]; [lia|]. destruct (lookup_lt_is_Some_2 q j) as [qj Hqj]; [lia|]. rewrite (Hpt _ _ Hqi) in Hx. rewrite (Hpt _ _ Hqj) in Hy.
  destruct Hq as [_ Hq]. destruct Hp as [_ Hp]. specialize (Hq i j qi qj ax ay Hij Hqi Hqj). rewrite (Ha' _ _ Hx), (Ha' _ _ Hy) in Hq. specialize (Hq Hax Hay). cbn in Hq.
  destruct Hq as [?|[? Hlt]]; [auto|]. specialize (Hp qi qj x y bx bY Hlt Hx Hy Hbx Hby). cbn in Hp. lia.
Qed.
Lemma permute_all_spec r ri ws m : perm r -> inverse_of r ri -> length r = m -> Forall (fun w => length w = m) ws -> exists ws', permute_all ri ws = Some ws' /\ Forall2 (permuted_by r) ws ws'.
Proof.
  intros Hr Hi Hm. pose proof (inverse_of_perm _ _ Hr Hi) as Hri. pose proof (proj1 Hi) as Lri. induction 1 as [|w ws Hw _ (ws' & E & H)]; [by exists []|]. cbn [permute_all].
  destruct (apply_inverse_permutation_correct ri w Hri) as (w' & Ew & _); [lia|]. rewrite Ew, bind_S, E, bind_S. exists (w' :: ws'). split; [done|]. constructor; [|done]. eapply apply_inverse_permuted; [done|done| |done]. lia.
Qed.
Lemma permute_nodes_spec std_sort pi fo tail head ws n : sorts std_sort -> n = length fo - 1 -> csr n fo head -> tails_ok fo tail head -> Forall (fun w => length w = length head) ws -> perm pi -> length pi = n ->
  exists fo' tail' head' ws' r, permute_nodes std_sort pi n fo head ws = Some (fo', head', ws') /\ csr n fo' head' /\ tails_ok fo' tail' head' /\ heads_sorted fo' head' /\
    perm r /\ length r = length head /\ renamed_arcs pi r tail head tail' head' /\ Forall2 (permuted_by r) ws ws'.
Proof.
  intros Hsort -> Hc Ht Hw Hpi Hlpi. set (n := length fo - 1) in *. unfold permute_nodes. destruct (tails_exist fo head Hc) as (tl & -> & Htl). rewrite bind_S, (tails_unique _ _ _ _ _ Hc Htl Ht). clear tl Htl.
  pose proof (csr_tails_lt _ _ _ _ Hc Ht) as Htn. rewrite Forall_forall in Htn. pose proof (proj1 Ht) as Lt.
  destruct (apply_to_elements_correct pi tail) as (t1 & Et1 & Lt1 & Ht1). { intros x Hx. rewrite Hlpi. by apply Htn. } unfold apply_permutation_to_elements_of in Et1. rewrite Et1, bind_S.
  destruct (apply_to_elements_correct pi head) as (h1 & Eh1 & Lh1 & Hh1). { intros x Hx. rewrite Hlpi. by apply (csr_head _ _ _ Hc). } unfold apply_permutation_to_elements_of in Eh1. rewrite Eh1, bind_S.
  assert (forall x, x ∈ t1 -> x < n) as Bt. { intros x [i Hi]%elem_of_list_lookup_1. destruct (lookup_lt_is_Some_2 tail i) as [y Hy]; [apply lookup_lt_Some in Hi; lia|]. rewrite (Ht1 _ _ Hy) in Hi. rewrite <- Hlpi. by eapply perm_lookup_lt. }
  assert (forall x, x ∈ h1 -> x < n) as Bh. { intros x [i Hi]%elem_of_list_lookup_1. destruct (lookup_lt_is_Some_2 head i) as [y Hy]; [apply lookup_lt_Some in Hi; lia|]. rewrite (Hh1 _ _ Hy) in Hi. rewrite <- Hlpi. by eapply perm_lookup_lt. }
  destruct (inverse_sort_spec std_sort h1 n Hsort Bh) as (pinv & p & -> & Hinv & Hpinv & Hpp & Lp & Hsp). rewrite bind_S. assert (length pinv = length p) as Lpinv by apply Hinv.
  destruct (apply_inverse_permutation_correct pinv t1 Hpinv) as (t2 & Et2 & _); [lia|]. rewrite Et2, bind_S. assert (permuted_by p t1 t2) as P2 by (eapply apply_inverse_permuted; [done|done| |done]; lia).
  destruct (compute_inverse_stable_sort_permutation_correct id t2 n) as (qinv & q & -> & Hqinv & Hqp' & Hq). { eapply (permuted_by_bounded p); [done| |done|done]. lia. } rewrite bind_S.
  pose proof (perm_of_ssp _ _ _ Hq) as [Hqp Lq]. assert (length qinv = length q) as Lqinv by apply Hqinv. assert (length t2 = length p) as Lt2 by apply P2.
  destruct (apply_inverse_permutation_correct qinv t2 Hqp') as (t3 & Et3 & _); [lia|]. rewrite Et3, bind_S. assert (permuted_by q t2 t3) as P3 by (eapply apply_inverse_permuted; [done|done| |done]; lia).
  destruct (chain_correct p q Hpp Hqp) as (r & Er & Hrp & Lr & Hr); [lia|]. destruct (chain_inverse p q pinv qinv r) as (ri & -> & Hri); [done|done|lia|done..|]. rewrite bind_S.
  pose proof (inverse_of_perm _ _ Hrp Hri) as Hrip. assert (length ri = length r) as Lri by apply Hri.
  destruct (apply_inverse_permutation_correct ri h1 Hrip) as (h2 & Eh2 & _); [lia|]. rewrite Eh2, bind_S. assert (permuted_by r h1 h2) as Q2 by (eapply apply_inverse_permuted; [done|done| |done]; lia).
  destruct (permute_all_spec r ri ws (length head) Hrp Hri ltac:(lia) Hw) as (ws' & -> & Hws). rewrite bind_S.
  assert (permuted_by r t1 t3) as Q3. { split; [destruct P3; lia|]. intros i x Hx. destruct (lookup_lt_is_Some_2 q i) as [y Hy]; [apply lookup_lt_Some in Hx; lia|]. rewrite (proj2 P3 _ _ Hy). apply (proj2 P2). by rewrite <- (Hr _ _ Hy). }
  destruct (sorted_csr n t3 h2) as (fo' & -> & Hc' & Ht').
  { by eapply sorted_by_perm. }
  { apply (permuted_by_bounded r t1 t3 n Hrp ltac:(lia) Q3 Bt). }
  { apply (permuted_by_bounded r h1 h2 n Hrp ltac:(lia) Q2 Bh). }
  { destruct Q3, Q2. lia. }
  rewrite bind_S. exists fo', t3, h2, ws', r. split; [done|]. split; [done|]. split; [done|]. split; [|split; [done|split; [lia|split; [|done]]]].
  - intros x e e' a b He He' Hle Ha Hb. destruct (decide (e = e')) as [->|Hne]; [assert (a = b) by congruence; lia|].
    destruct (lookup_lt_is_Some_2 r e) as [y Hy]; [apply lookup_lt_Some in Ha; destruct Q2; lia|]. destruct (lookup_lt_is_Some_2 r e') as [y' Hy']; [apply lookup_lt_Some in Hb; destruct Q2; lia|].
    pose proof (proj2 Ht' _ _ He) as T1. pose proof (proj2 Ht' _ _ He') as T2. rewrite (proj2 Q3 _ _ Hy) in T1. rewrite (proj2 Q3 _ _ Hy') in T2. rewrite (proj2 Q2 _ _ Hy) in Ha. rewrite (proj2 Q2 _ _ Hy') in Hb.
    destruct (chain_sorted t1 h1 p q t2 r ltac:(lia) Hsp Hpp P2 Hq Er e e' y y' x a x b ltac:(lia) Hy Hy' T1 T2 Ha Hb); lia.
  - split; [apply Q3|]. split; [apply Q2|]. intros e e0 t h He Et Eh. pose proof (Ht1 _ _ Et) as E1. pose proof (Hh1 _ _ Eh) as E2.
    destruct (lookup_lt_is_Some_2 pi t) as [t' Et']; [rewrite Hlpi; apply Htn; by eapply elem_of_list_lookup_2|]. destruct (lookup_lt_is_Some_2 pi h) as [h' Eh']; [rewrite Hlpi; apply (csr_head _ _ _ Hc); by eapply elem_of_list_lookup_2|].
    exists t', h'. split; [done|]. split; [done|]. rewrite (proj2 Q3 _ _ He), (proj2 Q2 _ _ He), E1, E2. done.
Qed.
Lemma load_all_spec ws : Forall (Forall (fun x => x < 2 ^ 32)%N) ws -> load_all (map word_file ws) = Some (Ret ws).
Proof. induction 1 as [|w ws Hw _ IH]; [done|]. cbn [map load_all]. rewrite (load_word_file w Hw). cbn [andthen]. rewrite IH. done. Qed.
Lemma permute_spec std_sort random fo tail head ws : sorts std_sort -> (forall n, perm (random n) /\ length (random n) = n) -> head <> [] ->
  csr (length fo - 1) fo head -> tails_ok fo tail head -> fits32 (length fo) -> fits32 (length head) -> Forall (fun w => length w = length head /\ Forall (fun x => x < 2 ^ 32)%N w) ws ->
  exists fo' tail' head' ws' r, randomly_permute_nodes std_sort random (id_file fo) (id_file head) (map word_file ws) = Some (Ret (id_file fo', id_file head', map word_file ws')) /\
    csr (length fo - 1) fo' head' /\ tails_ok fo' tail' head' /\ heads_sorted fo' head' /\
    perm r /\ length r = length head /\ renamed_arcs (random (length fo - 1)) r tail head tail' head' /\ Forall2 (permuted_by r) ws ws'.
Proof.
  intros Hsort Hrandom Hne Hc Ht Fn Fm Hw. apply Forall_and in Hw as [Hw Hww]. destruct (csr_fits _ _ Hc Fn Fm) as [F1 F2]. unfold randomly_permute_nodes.
  rewrite (load_id_file fo F1), (load_id_file head F2), (load_all_spec ws Hww). cbn [andthen]. rewrite (check_arrays_spec fo head ws Hc Hne Hw). cbn [andthen]. cbv zeta.
  destruct (Hrandom (length fo - 1)) as [Hp Hl]. destruct (permute_nodes_spec std_sort (random (length fo - 1)) fo tail head ws (length fo - 1) Hsort eq_refl Hc Ht Hw Hp Hl) as (fo' & tail' & head' & ws' & r & -> & H).
  rewrite bind_S. cbv beta iota. exists fo', tail', head', ws', r. split; [done|done].
Qed.

(** ** Renaming keeps distances *)
Section rename.
Context (pi r tail head tail' head' : list nat) (w w' : list N) (n : nat).
Context (Hpi : perm pi) (Hn : length pi = n) (Hr : perm r) (Lr : length r = length head) (Lt : length tail = length head) (Lw : length w = length head).
Context (Htn : Forall (fun x => x < n) tail) (Hhn : Forall (fun x => x < n) head).
Context (Hren : renamed_arcs pi r tail head tail' head') (Hw : permuted_by r w w').
Lemma walk_to_renamed s p t : awalk tail head s p t -> forall s' t', pi !! s = Some s' -> pi !! t = Some t' -> exists p', awalk tail' head' s' p' t' /\ total w' p' = total w p.
Proof.
  induction 1 as [u|u e x p v Et Eh _ IH]; intros s' t' Hs Ht.
  - assert (s' = t') as <- by congruence. exists []. split; [constructor|done].
  - destruct (perm_surj r e Hr) as [e' He']; [rewrite Lr, <- Lt; by eapply lookup_lt_Some|]. destruct (proj2 (proj2 Hren) _ _ _ _ He' Et Eh) as (u' & x' & Hu & Hx & Et' & Eh').
    destruct (IH x' t' Hx Ht) as (p' & Hp' & Htot). assert (u' = s') as -> by congruence. exists (e' :: p'). split; [by econstructor|].
    change (total w' (e' :: p')) with (default 0%N (w' !! e') + total w' p')%N. change (total w (e :: p)) with (default 0%N (w !! e) + total w p)%N. by rewrite Htot, (proj2 Hw _ _ He').
Qed.
Lemma walk_from_renamed s' p' t' : awalk tail' head' s' p' t' -> forall s, pi !! s = Some s' -> exists p t, pi !! t = Some t' /\ awalk tail head s p t /\ total w' p' = total w p.
Proof.
  induction 1 as [u|u' e' x' p' v' Et Eh _ IH]; intros s Hs.
  - exists [], s. split; [done|]. split; [constructor|done].
  - destruct Hren as (L1 & L2 & H). destruct (lookup_lt_is_Some_2 r e') as [e He]; [rewrite <- L1; by eapply lookup_lt_Some|]. pose proof (perm_lookup_lt _ _ _ Hr He) as Hlt.
    destruct (lookup_lt_is_Some_2 tail e) as [u Eu]; [lia|]. destruct (lookup_lt_is_Some_2 head e) as [x Ex]; [lia|]. destruct (H _ _ _ _ He Eu Ex) as (u2 & x2 & Hu & Hx & Et2 & Eh2).
    assert (u2 = u') as -> by congruence. assert (x2 = x') as -> by congruence. assert (u = s) as -> by (by eapply (perm_inj pi)). destruct (IH _ Hx) as (p & t & Ht & Hp & Htot). exists (e :: p), t. split; [done|]. split; [by econstructor|].
    change (total w' (e' :: p')) with (default 0%N (w' !! e') + total w' p')%N. change (total w (e :: p)) with (default 0%N (w !! e) + total w p)%N. by rewrite Htot, (proj2 Hw _ _ He).
Qed.
Lemma renamed_distance s t s' t' x : pi !! s = Some s' -> pi !! t = Some t' -> is_distance tail head w s t x <-> is_distance tail' head' w' s' t' x.
Proof.
  intros Hs Ht. assert (forall L, walk_length tail head w s t L <-> walk_length tail' head' w' s' t' L) as E.
  { intros L. split.
    - intros (p & Hp & ->). destruct (walk_to_renamed _ _ _ Hp _ _ Hs Ht) as (p' & Hp' & E). exists p'. by rewrite E.
    - intros (p' & Hp' & ->). destruct (walk_from_renamed _ _ _ Hp' _ Hs) as (p & t2 & Ht2 & Hp & E). assert (t2 = t) as -> by (by eapply (perm_inj pi)). exists p. by rewrite E. }
  unfold is_distance, shortest_capped. rewrite (E x). split; intros (H1 & H2 & H3); (split; [done|]; split; [|done]); intros L HL; apply H2; by apply E.
Qed.
End rename.
