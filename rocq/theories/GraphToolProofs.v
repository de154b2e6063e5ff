From Verif Require Import Base UtilSpec GraphSpec PathSpec ProtobufModel VectorIoModel ChFileModel PermutationModel SortModel GraphUtilModel PermutationProofs SortProofs GraphUtilProofs
  VerifyModel VerifySpec VerifyProofs DistanceToolModel DistanceToolSpec DistanceToolProofs TextModel TextSpec TextProofs GraphToolModel GraphToolSpec WalkSpec.
Ltac Zify.zify_post_hook ::= idtac.

(** ** Adjacency arrays from sorted arcs *)
Lemma sorted_csr n tail head : Sorted le tail -> (forall x, x ∈ tail -> x < n) -> (forall x, x ∈ head -> x < n) -> length tail = length head ->
  exists fo, invert_vector tail n = Some fo /\ csr n fo head /\ tails_ok fo tail head.
Proof.
  intros Hs Ht Hh Hl. apply Sorted_StronglySorted in Hs; [|intros ???; lia].
  destruct (invert_vector_correct tail n Hs Ht) as (fo & E & L & H0 & Hn & Hm & Hin). exists fo. split; [done|]. split.
  - split; [done|done| |congruence|done]. intros i lo hi Hlo Hhi. eapply Hm; [|done..]. apply lookup_lt_Some in Hhi. lia.
  - split; [done|]. intros x a (lo & hi & Hlo & Hhi & Ha). assert (x < n) as Hx by (apply lookup_lt_Some in Hhi; lia).
    destruct (lookup_lt_is_Some_2 tail a) as [y Hy].
    { destruct (decide (a < length tail)) as [|Hge]; [done|]. exfalso. assert (hi <= length tail); [|lia].
      clear Hin Hlo Ha. revert hi Hhi. assert (forall k hi, S x + k = n -> fo !! S x = Some hi -> hi <= length tail) as G; [|intros hi; apply (G (n - S x)); lia].
      intros k. clear Hge a. revert x Hx. induction k as [|k IH]; intros x Hx hi Hk Hhi. { replace (S x) with n in Hhi by lia. assert (hi = length tail) by congruence. lia. }
      destruct (lookup_lt_is_Some_2 fo (S (S x))) as [hi2 Hhi2]; [lia|]. pose proof (Hm (S x) hi hi2 ltac:(lia) Hhi Hhi2). specialize (IH (S x) ltac:(lia) hi2 ltac:(lia) Hhi2). lia. }
    destruct (Hin x lo hi a y Hx Hlo Hhi Hy) as [_ H]. by rewrite <- (H Ha).
Qed.
Lemma csr_inverted n fo tail head : csr n fo head -> tails_ok fo tail head -> Sorted le tail /\ invert_vector tail n = Some fo.
Proof.
  intros Hc Ht. assert (length fo - 1 = n) as Hn by (rewrite (csr_len _ _ _ Hc); lia). destruct (tails_exist fo head) as (tail' & E & Ht'); [by rewrite Hn|].
  rewrite (tails_unique _ _ _ _ _ Hc Ht' Ht) in E. destruct (invert_inverse_round_trip fo tail) as (H1 & _ & H2); [|done|].
  { split; [apply Hc|]. apply (csr_mono _ _ _ Hc). }
  rewrite Hn in H2. split; [by apply StronglySorted_Sorted|done].
Qed.
Lemma csr_bound n fo head : csr n fo head -> Forall (fun x => x <= length head) fo.
Proof.
  intros Hc. apply Forall_lookup_2. intros i x Hx. assert (i <= n) as Hi. { apply lookup_lt_Some in Hx. rewrite (csr_len _ _ _ Hc) in Hx. lia. }
  exact (csr_mono_le _ _ _ _ _ _ _ Hc Hi Hx (csr_last _ _ _ Hc)).
Qed.

(** ** Ordering the arcs *)
Lemma order_arcs_eq n tail head w : order_arcs n tail head w =
  ('(r, tail) ← compute_inverse_sort_permutation_first_by_left_then_by_right_and_apply_sort_to_left false n tail n head;
   head ← apply_inverse_permutation r head; w ← apply_inverse_permutation r w; fo ← invert_vector tail n; Some (fo, head, w)).
Proof.
  unfold order_arcs, compute_inverse_sort_permutation_first_by_left_then_by_right_and_apply_sort_to_left.
  destruct (compute_inverse_stable_sort_permutation_using_key id head n) as [p|]; [|done]. rewrite !bind_S.
  destruct (apply_inverse_permutation p tail) as [t|]; [|done]. rewrite !bind_S.
  destruct (compute_inverse_stable_sort_permutation_using_key id t n) as [q|]; [|done]. rewrite !bind_S.
  destruct (apply_inverse_permutation q t) as [t'|]; [|done]. rewrite !bind_S. cbn [assert_sorted]. rewrite bind_S.
  by destruct (chain_permutation_first_left_then_right q p).
Qed.
Lemma order_arcs_spec n tail head w : length tail = length head -> length w = length head -> (forall x, x ∈ tail -> x < n) -> (forall x, x ∈ head -> x < n) ->
  exists fo tail' head' w' r, order_arcs n tail head w = Some (fo, head', w') /\ lex_sort_perm tail head r /\ permuted_by r tail tail' /\ permuted_by r head head' /\ permuted_by r w w' /\
    csr n fo head' /\ tails_ok fo tail' head'.
Proof.
  intros L1 L2 Ht Hh. rewrite order_arcs_eq. destruct (compute_inverse_sort_permutation_lex_apply_correct false n tail n head L1 Ht Hh) as (r & ri & tail' & -> & Hlex & Hinv & Hpt & Hsort). rewrite bind_S.
  assert (length r = length tail) as Lr by (destruct Hlex as [-> _]; apply seq_length). assert (perm r) as Hr by (unfold perm; rewrite Lr; apply Hlex).
  pose proof (inverse_of_perm _ _ Hr Hinv) as Hri. pose proof (proj1 Hinv) as Lri.
  destruct (apply_inverse_permutation_correct ri head Hri) as (head' & E1 & _); [lia|]. rewrite E1, bind_S. destruct (apply_inverse_permutation_correct ri w Hri) as (w' & E2 & _); [lia|]. rewrite E2, bind_S.
  assert (permuted_by r head head') as Hph by (eapply apply_inverse_permuted; [done|done| |done]; lia). assert (permuted_by r w w') as Hpw by (eapply apply_inverse_permuted; [done|done| |done]; lia).
  destruct (sorted_csr n tail' head') as (fo & E3 & Hc & Hok); [done|..].
  - apply (permuted_by_bounded r tail tail' n Hr Lr Hpt Ht).
  - apply (permuted_by_bounded r head head' n Hr ltac:(lia) Hph Hh).
  - destruct Hpt, Hph. lia.
  - rewrite E3, bind_S. by exists fo, tail', head', w', r.
Qed.
Lemma lex_heads_sorted n fo tail head tail' head' r : csr n fo head' -> tails_ok fo tail' head' -> length tail = length head -> lex_sort_perm tail head r -> permuted_by r tail tail' -> permuted_by r head head' -> heads_sorted fo head'.
Proof.
  intros Hc [_ Hok] Hl [_ Hlex] [L1 Ht] [L2 Hh] x e e' a b He He' Hle Ha Hb. destruct (decide (e = e')) as [->|Hne]; [assert (a = b) by congruence; lia|].
  destruct (lookup_lt_is_Some_2 r e) as [y Hy]; [apply lookup_lt_Some in Ha; lia|]. destruct (lookup_lt_is_Some_2 r e') as [y' Hy']; [apply lookup_lt_Some in Hb; lia|].
  pose proof (Hok _ _ He) as H1. pose proof (Hok _ _ He') as H2. rewrite (Ht _ _ Hy) in H1. rewrite (Ht _ _ Hy') in H2. rewrite (Hh _ _ Hy) in Ha. rewrite (Hh _ _ Hy') in Hb.
  specialize (Hlex e e' y y' x a x b ltac:(lia) Hy Hy' H1 H2 Ha Hb). lia.
Qed.
Lemma lex_identity tail head r : length tail = length head -> lex_sort_perm tail head r ->
  (forall i j a b c d, i < j -> tail !! i = Some a -> tail !! j = Some b -> head !! i = Some c -> head !! j = Some d -> a < b \/ (a = b /\ c <= d)) -> r = seq 0 (length tail).
Proof.
  intros Hl [Hp Hlex] Hs. assert (forall x, x ∈ r -> x < length tail) as Hr by (intros x; rewrite Hp, elem_of_seq; lia).
  apply (Sorted_unique le); [| |done].
  - apply StronglySorted_Sorted.
    assert (forall i j x y, i < j -> r !! i = Some x -> r !! j = Some y -> x <= y) as Hle.
    { intros i j x y Hij Hx Hy. destruct (decide (y < x)) as [Hlt|]; [|lia]. exfalso.
      destruct (lookup_lt_is_Some_2 tail x) as [a Ha]; [apply Hr; by eapply elem_of_list_lookup_2|]. destruct (lookup_lt_is_Some_2 tail y) as [b Hb]; [apply Hr; by eapply elem_of_list_lookup_2|].
      destruct (lookup_lt_is_Some_2 head x) as [c Hc]; [rewrite <- Hl; apply Hr; by eapply elem_of_list_lookup_2|]. destruct (lookup_lt_is_Some_2 head y) as [d Hd]; [rewrite <- Hl; apply Hr; by eapply elem_of_list_lookup_2|].
      pose proof (Hlex i j x y a c b d Hij Hx Hy Ha Hb Hc Hd). pose proof (Hs y x b a d c Hlt Hb Ha Hd Hc). lia. }
    clear -Hle. induction r as [|x r IH]; constructor.
    + apply IH. intros i j a b Hij Ha Hb. apply (Hle (S i) (S j)); [lia|done..].
    + rewrite Forall_forall. intros y [j Hj]%elem_of_list_lookup_1. apply (Hle 0 (S j)); [lia|done..].
  - apply StronglySorted_Sorted. clear. generalize 0. induction (length tail) as [|k IH]; intros s; cbn [seq]; [constructor|]. constructor; [done|]. apply Forall_forall. intros x. rewrite elem_of_seq. lia.
Qed.

(** ** Reading DIMACS files *)
Notation arcs_t := (list (nat * nat * N)).
Definition tails_of (arcs : arcs_t) := (fun a => fst (fst a)) <$> arcs.
Definition heads_of (arcs : arcs_t) := (fun a => snd (fst a)) <$> arcs.
Definition weights_of (arcs : arcs_t) := snd <$> arcs.
Lemma read_header_spec n m l : header_line n m l -> fits32 n -> fits32 m -> read_header l = Ret (N.of_nat n, N.of_nat m).
Proof.
  intros (b1 & b2 & b3 & b4 & dn & dm & -> & H1 & H2 & H3 & H4 & Hn & Hm) Fn Fm. unfold read_header.
  rewrite (read_word_first [112%N] (b1 ++ _)); [|done|by repeat constructor|apply (gap_stops _ _ H1)]. rewrite bind_S. cbv beta iota.
  rewrite (read_word_spec b1 [115; 112]%N (b2 ++ _)); [|apply H1|done|by repeat constructor|apply (gap_stops _ _ H2)]. rewrite bind_S. cbv beta iota.
  rewrite (read_unsigned_spec 32 b2 dn (N.of_nat n) (b3 ++ dm ++ b4)); [|apply H2|exact Hn|exact Fn|apply (gap_stops _ _ H3)]. rewrite bind_S. cbv beta iota.
  rewrite (read_unsigned_spec 32 b3 dm (N.of_nat m) b4); [|apply H3|exact Hm|exact Fm|by apply blanks_stops]. rewrite bind_S. cbv beta iota. rewrite !bool_decide_true by done. done.
Qed.
Lemma dec_nat (x : nat) : fits32 (S x) -> ((N.of_nat (S x) + (2 ^ 32 - 1)) mod 2 ^ 32 = N.of_nat x)%N.
Proof.
  unfold fits32. intros H. replace (N.of_nat (S x) + (2 ^ 32 - 1))%N with (N.of_nat x + 1 * 2 ^ 32)%N by (change (2 ^ 32)%N with 4294967296%N; lia).
  rewrite N.mod_add by done. apply N.mod_small. lia.
Qed.
Lemma read_arc_spec n a l : arc_line a l -> fits32 (S n) -> fst (fst a) < n /\ snd (fst a) < n /\ (snd a < 2 ^ 32)%N -> read_arc (N.of_nat n) l = Ret a.
Proof.
  intros (b1 & b2 & b3 & b4 & dt & dh & dw & -> & H1 & H2 & H3 & H4 & Ht & Hh & Hw) Fn (Hta & Hha & Hwa). destruct a as [[t h] w]. cbn [fst snd] in *. unfold read_arc.
  assert (fits32 (S t)) as Ft by (unfold fits32 in *; lia). assert (fits32 (S h)) as Fh by (unfold fits32 in *; lia).
  rewrite (read_word_first [97%N] (b1 ++ _)); [|done|by repeat constructor|apply (gap_stops _ _ H1)]. rewrite bind_S. cbv beta iota.
  rewrite (read_unsigned_spec 32 b1 dt (N.of_nat (S t)) (b2 ++ dh ++ b3 ++ dw ++ b4)); [|apply H1|exact Ht|exact Ft|apply (gap_stops _ _ H2)]. rewrite bind_S. cbv beta iota.
  rewrite (read_unsigned_spec 32 b2 dh (N.of_nat (S h)) (b3 ++ dw ++ b4)); [|apply H2|exact Hh|exact Fh|apply (gap_stops _ _ H3)]. rewrite bind_S. cbv beta iota.
  rewrite (read_unsigned_spec 32 b3 dw w b4); [|apply H3|exact Hw|exact Hwa|by apply blanks_stops]. rewrite bind_S. cbv beta iota zeta.
  rewrite !dec_nat, !Nat2N.id by done. rewrite bool_decide_true by done. cbn [negb orb]. destruct (N.leb_spec (N.of_nat n) (N.of_nat h)); [lia|]. by destruct (N.leb_spec (N.of_nat n) (N.of_nat t)); [lia|].
Qed.
Definition filled (n m : nat) (done_ : arcs_t) : cstate :=
  mkCstate (Some (N.of_nat n, N.of_nat m)) (N.of_nat (length done_)) (tails_of done_ ++ replicate (m - length done_) 0) (heads_of done_ ++ replicate (m - length done_) 0) (weights_of done_ ++ replicate (m - length done_) 0%N).
Lemma wr_app {A} (l : list A) x y r : wr (l ++ y :: r) (length l) x = Some ((l ++ [x]) ++ r).
Proof. rewrite wr_Some by (rewrite app_length; cbn; lia). f_equal. rewrite insert_app_r_alt by lia. rewrite Nat.sub_diag. cbn. by rewrite <- app_assoc. Qed.
Lemma convert_comment s l : comment_line l -> convert_line s l = Some (Ret s).
Proof. by intros [-> |(l' & ->)]. Qed.
Lemma convert_arc n m dn a l : arc_line a l -> fits32 (S n) -> fits32 m -> fst (fst a) < n /\ snd (fst a) < n /\ (snd a < 2 ^ 32)%N -> length dn < m ->
  convert_line (filled n m dn) l = Some (Ret (filled n m (dn ++ [a]))).
Proof.
  intros Hl Fn Fm Ha Hlt. pose proof (read_arc_spec n a l Hl Fn Ha) as E. destruct Hl as (b1 & b2 & b3 & b4 & dt & dh & dw & El & _). destruct l as [|c l]; [done|]. injection El as -> El. clear El.
  unfold convert_line. destruct (N.eqb_spec 97 99) as [|_]; [done|]. cbn [filled c_header]. rewrite E. cbn [andthen]. destruct a as [[t h] w]. cbn [filled c_next c_head c_tail c_weight].
  destruct (N.ltb_spec (N.of_nat (length dn)) (N.of_nat m)) as [_|]; [|lia]. rewrite Nat2N.id.
  assert (exists k, m - length dn = S k /\ m - length (dn ++ [(t, h, w)]) = k) as (k & E1 & E2). { exists (m - length dn - 1). rewrite app_length. cbn. lia. }
  rewrite E1. cbn [replicate].
  assert (length dn = length (tails_of dn)) as L1 by (unfold tails_of; by rewrite fmap_length). assert (length dn = length (heads_of dn)) as L2 by (unfold heads_of; by rewrite fmap_length). assert (length dn = length (weights_of dn)) as L3 by (unfold weights_of; by rewrite fmap_length).
  rewrite L2 at 1. rewrite wr_app, bind_S. rewrite L1 at 1. rewrite wr_app, bind_S. rewrite L3 at 1. rewrite wr_app, bind_S. unfold filled. rewrite E2. do 3 f_equal.
  - rewrite app_length. cbn [length]. rewrite N.mod_small; [lia|]. unfold fits32 in Fm. lia.
  - unfold tails_of. by rewrite fmap_app.
  - unfold heads_of. by rewrite fmap_app.
  - unfold weights_of. by rewrite fmap_app.
Qed.
Lemma convert_arcs n m ls arcs : arc_lines ls arcs -> fits32 (S n) -> fits32 m -> Forall (fun a => fst (fst a) < n /\ snd (fst a) < n /\ (snd a < 2 ^ 32)%N) arcs ->
  forall dn, length dn + length arcs <= m -> convert_lines (filled n m dn) ls = Some (Ret (filled n m (dn ++ arcs))).
Proof.
  intros H Fn Fm. induction H as [|l ls arcs Hl _ IH|a l ls arcs Hl _ IH]; intros Hf dn Hle; cbn [convert_lines].
  - by rewrite app_nil_r.
  - rewrite (convert_comment _ _ Hl). cbn [andthen]. by apply IH.
  - apply Forall_cons in Hf as [Ha Hf]. cbn [length] in Hle. rewrite (convert_arc n m dn a l Hl Fn Fm Ha) by lia. cbn [andthen]. rewrite IH; [by rewrite <- app_assoc|done|rewrite app_length; cbn; lia].
Qed.
Lemma convert_lines_app s a b : convert_lines s (a ++ b) = andthen (convert_lines s a) (fun s => convert_lines s b).
Proof. revert s. induction a as [|l a IH]; intros s; [done|]. cbn [app convert_lines]. destruct (convert_line s l) as [[s'|]|]; cbn [andthen]; [apply IH|done|done]. Qed.
Lemma convert_comments s ls : Forall comment_line ls -> convert_lines s ls = Some (Ret s).
Proof. induction 1 as [|l ls Hl _ IH]; [done|]. cbn [convert_lines]. by rewrite (convert_comment _ _ Hl). Qed.
Lemma convert_file n arcs file : dimacs_file n arcs file -> arcs_fit n arcs -> convert_lines (mkCstate None 0 [] [] []) (getlines file) = Some (Ret (filled n (length arcs) arcs)).
Proof.
  intros (cs & hd & ls & Hf & Hcs & Hh & Hls) (Fn & Fm & Ha). rewrite (getlines_spec _ _ Hf), convert_lines_app, (convert_comments _ _ Hcs). cbn [andthen convert_lines].
  assert (fits32 n) as Fn' by (unfold fits32 in *; lia). pose proof (read_header_spec n (length arcs) hd Hh Fn' Fm) as E. destruct Hh as (b1 & b2 & b3 & b4 & dn & dm & El & _). destruct hd as [|c hd]; [done|]. injection El as -> El. clear El.
  unfold convert_line. destruct (N.eqb_spec 112 99) as [|_]; [done|]. cbn [c_header]. rewrite E. cbn [andthen c_next]. rewrite Nat2N.id.
  pose proof (convert_arcs n (length arcs) ls arcs Hls Fn Fm Ha [] ltac:(cbn; lia)) as E'. unfold filled at 1 in E'. cbn [length app tails_of heads_of weights_of fmap list_fmap] in E'. rewrite Nat.sub_0_r in E'. exact E'.
Qed.
Lemma convert_spec n arcs file : dimacs_file n arcs file -> arcs_fit n arcs ->
  exists fo head w arcs', convert_road_dimacs_graph file = Some (Ret (id_file fo, id_file head, word_file w)) /\ stores n fo head w arcs' /\ arcs_sorted arcs arcs'.
Proof.
  intros Hd Hfit. pose proof (convert_file _ _ _ Hd Hfit) as E. destruct Hfit as (Fn & Fm & Ha). unfold convert_road_dimacs_graph. rewrite E. cbn [andthen filled c_header c_next c_tail c_head c_weight]. rewrite bind_S. cbv beta iota.
  rewrite throw_if_then, N.eqb_refl. cbn [negb]. destruct (N.ltb_spec (N.of_nat n) (2 ^ 32 - 1)) as [_|Hge]; [|unfold fits32 in Fn; change (2 ^ 32)%N with 4294967296%N in *; lia]. cbn [chk]. rewrite bind_S.
  rewrite !Nat.sub_diag. cbn [replicate]. rewrite !app_nil_r, Nat2N.id. rewrite Forall_forall in Ha.
  destruct (order_arcs_spec n (tails_of arcs) (heads_of arcs) (weights_of arcs)) as (fo & tail' & head' & w' & r & -> & Hlex & Hpt & Hph & Hpw & Hc & Hok).
  { unfold tails_of, heads_of. by rewrite !fmap_length. }
  { unfold weights_of, heads_of. by rewrite !fmap_length. }
  { unfold tails_of. intros x. rewrite elem_of_list_fmap. intros (a & -> & Hin). apply (Ha _ Hin). }
  { unfold heads_of. intros x. rewrite elem_of_list_fmap. intros (a & -> & Hin). apply (Ha _ Hin). }
  rewrite bind_S. cbv beta iota.
  assert (length r = length arcs) as Lr. { destruct Hlex as [-> _]. rewrite seq_length. unfold tails_of. by rewrite fmap_length. } assert (perm r) as Hr. { unfold perm. rewrite Lr. destruct Hlex as [Hp _]. rewrite Hp. unfold tails_of. by rewrite fmap_length. }
  destruct (apply_permutation_correct r arcs Hr Lr) as (arcs' & _ & Hpa).
  exists fo, head', w', arcs'. split; [done|]. split; [|by exists r]. split; [done|]. destruct Hpt as [L1 Hpt], Hph as [L2 Hph], Hpw as [L3 Hpw], Hpa as [L4 Hpa]. split; [lia|]. split; [lia|].
  intros e t h x He. destruct (lookup_lt_is_Some_2 r e) as [y Hy]; [apply lookup_lt_Some in He; lia|]. rewrite (Hpa _ _ Hy) in He.
  pose proof (Hpt _ _ Hy) as Et. pose proof (Hph _ _ Hy) as Eh. pose proof (Hpw _ _ Hy) as Ew. unfold tails_of, heads_of, weights_of in Et, Eh, Ew. rewrite list_lookup_fmap, He in Et. rewrite list_lookup_fmap, He in Eh. rewrite list_lookup_fmap, He in Ew. cbn in Et, Eh, Ew.
  split; [|done]. destruct (csr_tail_exists _ _ _ e Hc) as (z & _ & Hz); [by eapply lookup_lt_Some|]. pose proof (proj2 Hok _ _ Hz). by simplify_eq.
Qed.

(** ** Whatever is accepted becomes a graph *)
Lemma read_unsigned_lt l x rest : read_unsigned 32 l = Some (x, rest) -> (x < 2 ^ 32)%N.
Proof.
  unfold read_unsigned. set (p := match skip_spaces l with [] => _ | _ :: _ => _ end). destruct p as [neg l']. destruct (span is_digit l') as [ds r]. destruct ds as [|d ds]; [done|].
  cbv zeta. destruct (N.ltb_spec (digits_value (d :: ds)) (2 ^ 32)) as [Hlt|]; [|done]. intros [= <- _]. destruct neg; [by apply N.mod_lt|done].
Qed.
Lemma read_header_lt l n m : read_header l = Ret (n, m) -> (n < 2 ^ 32)%N /\ (m < 2 ^ 32)%N.
Proof.
  unfold read_header. destruct (read_word l) as [[p l1]|]; [rewrite bind_S|done]. destruct (read_word l1) as [[sp l2]|]; [rewrite bind_S|done].
  destruct (read_unsigned 32 l2) as [[n' l3]|] eqn:En; [rewrite bind_S|done]. destruct (read_unsigned 32 l3) as [[m' l4]|] eqn:Em; [rewrite bind_S|done]. cbv beta iota.
  destruct (_ && _); [|done]. intros [= <- <-]. split; by eapply read_unsigned_lt.
Qed.
Lemma read_arc_lt n l t h w : read_arc n l = Ret (t, h, w) -> t < N.to_nat n /\ h < N.to_nat n /\ (w < 2 ^ 32)%N.
Proof.
  unfold read_arc. destruct (read_word l) as [[a l1]|]; [rewrite bind_S|done]. destruct (read_unsigned 32 l1) as [[t' l2]|]; [rewrite bind_S|done].
  destruct (read_unsigned 32 l2) as [[h' l3]|]; [rewrite bind_S|done]. destruct (read_unsigned 32 l3) as [[w' l4]|] eqn:Ew; [rewrite bind_S|done]. cbv beta iota zeta.
  generalize ((h' + (2 ^ 32 - 1)) mod 2 ^ 32)%N, ((t' + (2 ^ 32 - 1)) mod 2 ^ 32)%N. intros h1 t1.
  destruct (bool_decide _); cbn [negb orb]; [|done]. destruct (N.leb_spec n h1); cbn [orb]; [done|]. destruct (N.leb_spec n t1); [done|]. intros [= <- <- <-].
  split; [lia|]. split; [lia|]. by eapply read_unsigned_lt.
Qed.
(** [cnt] lines of arcs were read: the first of them are stored. *)
Definition read_so_far (s : cstate) : Prop :=
  match c_header s with
  | None => c_next s = 0%N
  | Some (n, m) => (n < 2 ^ 32)%N /\ (m < 2 ^ 32)%N /\ length (c_tail s) = N.to_nat m /\ length (c_head s) = N.to_nat m /\ length (c_weight s) = N.to_nat m /\ Forall (fun x => x < 2 ^ 32)%N (c_weight s) /\
      exists cnt, c_next s = (cnt mod 2 ^ 32)%N /\ forall i, (N.of_nat i < cnt)%N -> (N.of_nat i < m)%N ->
        exists t h, c_tail s !! i = Some t /\ c_head s !! i = Some h /\ t < N.to_nat n /\ h < N.to_nat n
  end.
Lemma convert_line_keeps s l s' : read_so_far s -> convert_line s l = Some (Ret s') -> read_so_far s'.
Proof.
  intros H. unfold convert_line. destruct l as [|c l]; [by intros [= <-]|]. destruct (c =? 99)%N; [by intros [= <-]|]. unfold read_so_far in H. destruct (c_header s) as [[n m]|] eqn:Eh.
  - destruct H as (Hn & Hm & L1 & L2 & L3 & Hw & cnt & Hcnt & Hs). destruct (read_arc n (c :: l)) as [[[t h] w]|] eqn:Ea; cbn [andthen]; [|done]. destruct (read_arc_lt _ _ _ _ _ Ea) as (Ht & Hh & Hww).
    assert ((c_next s + 1) mod 2 ^ 32 = (cnt + 1) mod 2 ^ 32)%N as Enext. { rewrite Hcnt. by rewrite N.add_mod_idemp_l. }
    destruct (N.ltb_spec (c_next s) m) as [Hlt|Hge].
    + rewrite (wr_Some (c_head s)) by lia. rewrite bind_S. rewrite (wr_Some (c_tail s)) by lia. rewrite bind_S. rewrite (wr_Some (c_weight s)) by lia. rewrite bind_S. intros [= <-].
      unfold read_so_far. cbn [c_header c_next c_tail c_head c_weight]. rewrite !insert_length. split; [done|]. split; [done|]. split; [done|]. split; [done|]. split; [done|]. split; [by apply Forall_insert|].
      exists (cnt + 1)%N. split; [done|]. intros i Hi Him. destruct (decide (i = N.to_nat (c_next s))) as [->|Hne].
      * exists t, h. rewrite !list_lookup_insert by lia. done.
      * rewrite !list_lookup_insert_ne by done. apply Hs; [|done]. destruct (decide (N.of_nat i = cnt)) as [E|]; [|lia]. exfalso. apply Hne. rewrite Hcnt, <- E, N.mod_small by lia. by rewrite Nat2N.id.
    + intros [= <-]. unfold read_so_far. cbn [c_header c_next c_tail c_head c_weight]. split; [done|]. split; [done|]. split; [done|]. split; [done|]. split; [done|]. split; [done|].
      exists (cnt + 1)%N. split; [done|]. intros i Hi Him. apply Hs; [|done]. destruct (decide (N.of_nat i = cnt)) as [E|]; [|lia]. exfalso. rewrite Hcnt, <- E, N.mod_small in Hge by lia. lia.
  - destruct (read_header (c :: l)) as [[n m]|] eqn:E; cbn [andthen]; [|done]. destruct (read_header_lt _ _ _ E) as [Hn Hm]. intros [= <-]. unfold read_so_far. cbn [c_header c_next c_tail c_head c_weight]. rewrite !replicate_length.
    split; [done|]. split; [done|]. split; [done|]. split; [done|]. split; [done|]. split; [by apply Forall_replicate|]. exists 0%N. split; [by rewrite H|]. intros i Hi. lia.
Qed.
Lemma convert_lines_keep ls : forall s s', read_so_far s -> convert_lines s ls = Some (Ret s') -> read_so_far s'.
Proof.
  induction ls as [|l ls IH]; intros s s' H; cbn [convert_lines]; [by intros [= <-]|]. destruct (convert_line s l) as [[s1|]|] eqn:E; cbn [andthen]; [|done|done]. apply IH. by eapply convert_line_keeps.
Qed.
Lemma convert_sound file f1 f2 f3 : convert_road_dimacs_graph file = Some (Ret (f1, f2, f3)) ->
  exists fo tail head w, f1 = id_file fo /\ f2 = id_file head /\ f3 = word_file w /\ stored_graph fo tail head w /\ heads_sorted fo head.
Proof.
  unfold convert_road_dimacs_graph. destruct (convert_lines _ (getlines file)) as [[s|]|] eqn:E; cbn [andthen]; [|done|done]. apply convert_lines_keep in E; [|done]. unfold read_so_far in E.
  destruct (c_header s) as [[n m]|]; [|done]. rewrite bind_S. cbv beta iota. rewrite throw_if_then. destruct (N.eqb_spec (c_next s) m) as [Enext|]; cbn [negb]; [|done].
  destruct (N.ltb_spec n (2 ^ 32 - 1)) as [Hlt|]; cbn [chk]; [|done]. rewrite bind_S. destruct E as (Hn & Hm & L1 & L2 & L3 & Hw & cnt & Hcnt & Hs).
  assert (m <= cnt)%N as Hle. { rewrite <- Enext, Hcnt. apply N.mod_le. done. }
  destruct (order_arcs_spec (N.to_nat n) (c_tail s) (c_head s) (c_weight s)) as (fo & tail' & head' & w' & r & -> & Hlex & Hpt & Hph & Hpw & Hc & Hok); [lia|lia|..].
  { intros x [i Hi]%elem_of_list_lookup_1. pose proof (lookup_lt_Some _ _ _ Hi). destruct (Hs i) as (t & h & Ht & Hh & ? & ?); [lia|lia|]. by simplify_eq. }
  { intros x [i Hi]%elem_of_list_lookup_1. pose proof (lookup_lt_Some _ _ _ Hi). destruct (Hs i) as (t & h & Ht & Hh & ? & ?); [lia|lia|]. by simplify_eq. }
  rewrite bind_S. cbv beta iota. intros [= <- <- <-]. exists fo, tail', head', w'. split; [done|]. split; [done|]. split; [done|].
  assert (length r = length (c_tail s)) as Lr by (destruct Hlex as [-> _]; apply seq_length).
  split; [|eapply lex_heads_sorted; [done|done| |done|done|done]; lia]. split.
  - rewrite (csr_len _ _ _ Hc). by replace (S (N.to_nat n) - 1) with (N.to_nat n) by lia.
  - done.
  - destruct Hpw as [-> _], Hph as [-> _]. done.
  - unfold fits32. rewrite (csr_len _ _ _ Hc). change (2 ^ 32)%N with 4294967296%N in *. lia.
  - unfold fits32. destruct Hph as [-> _]. rewrite Lr, L1. lia.
  - apply Forall_lookup_2. intros i x Hx. destruct (lookup_lt_is_Some_2 r i) as [y Hy]; [apply lookup_lt_Some in Hx; destruct Hpw; lia|]. rewrite (proj2 Hpw _ _ Hy) in Hx. by eapply Forall_lookup_1 in Hw.
Qed.

(** ** Printing DIMACS files *)
Lemma print_header_line n m : fits32 n -> fits32 m -> exists l, print_header n m = l ++ [10%N] /\ 10%N ∉ l /\ header_line n m l.
Proof.
  intros Fn Fm. assert (numeral (print_unsigned (N.of_nat n)) (N.of_nat n)) as Hn. { apply print_unsigned_spec. unfold fits32 in Fn. change (2 ^ 32)%N with 4294967296%N in *. change (2 ^ 64)%N with 18446744073709551616%N. lia. }
  assert (numeral (print_unsigned (N.of_nat m)) (N.of_nat m)) as Hm. { apply print_unsigned_spec. unfold fits32 in Fm. change (2 ^ 32)%N with 4294967296%N in *. change (2 ^ 64)%N with 18446744073709551616%N. lia. }
  exists ([112; 32; 115; 112; 32]%N ++ print_unsigned (N.of_nat n) ++ [32%N] ++ print_unsigned (N.of_nat m)). split; [unfold print_header; by rewrite <- !app_assoc|]. split.
  - rewrite !not_elem_of_app. split; [set_solver by done|]. split; [by eapply numeral_no_newline|]. split; [set_solver by done|]. by eapply numeral_no_newline.
  - exists [32%N], [32%N], [32%N], [], (print_unsigned (N.of_nat n)), (print_unsigned (N.of_nat m)). rewrite app_nil_r.
    assert (gap [32%N]) as Hg by (split; [done|]; repeat constructor). split; [done|]. split; [done|]. split; [done|]. split; [done|]. split; [constructor|done].
Qed.
Lemma print_arc_line n t h w : fits32 (S n) -> t < n -> h < n -> (w < 2 ^ 32)%N -> exists l, print_arc t h w = l ++ [10%N] /\ 10%N ∉ l /\ arc_line (t, h, w) l.
Proof.
  intros Fn Ht Hh Hw. unfold fits32 in Fn. unfold print_arc. change (2 ^ 32)%N with 4294967296%N in *. rewrite !N.mod_small by lia.
  assert (forall x, (x < 4294967296)%N -> numeral (print_unsigned x) x) as Hp. { intros x Hx. apply print_unsigned_spec. change (2 ^ 64)%N with 18446744073709551616%N. lia. }
  pose proof (Hp (N.of_nat t + 1)%N ltac:(lia)) as Nt. pose proof (Hp (N.of_nat h + 1)%N ltac:(lia)) as Nh. pose proof (Hp w Hw) as Nw.
  set (dt := print_unsigned (N.of_nat t + 1)) in *. set (dh := print_unsigned (N.of_nat h + 1)) in *. set (dw := print_unsigned w) in *.
  exists ([97; 32]%N ++ dt ++ [32%N] ++ dh ++ [32%N] ++ dw). split; [by rewrite <- !app_assoc|]. split.
  - rewrite !not_elem_of_app. split; [set_solver by done|]. split; [by eapply numeral_no_newline|]. split; [set_solver by done|]. split; [by eapply numeral_no_newline|]. split; [set_solver by done|]. by eapply numeral_no_newline.
  - exists [32%N], [32%N], [32%N], [], dt, dh, dw. rewrite app_nil_r. assert (gap [32%N]) as Hg by (split; [done|]; repeat constructor). split; [done|]. split; [done|]. split; [done|]. split; [done|]. split; [constructor|].
    cbn [fst snd]. by replace (N.of_nat (S t)) with (N.of_nat t + 1)%N by lia; replace (N.of_nat (S h)) with (N.of_nat h + 1)%N by lia.
Qed.
Lemma check_arrays_spec fo head ws : csr (length fo - 1) fo head -> head <> [] -> Forall (fun w => length w = length head) ws -> check_arrays fo head ws = Some (Ret tt).
Proof.
  intros Hc Hne Hw. unfold check_arrays. rewrite (csr_first _ _ _ Hc), bind_S, last_at, (csr_last _ _ _ Hc), bind_S. rewrite throw_if_then. cbn [Nat.eqb negb]. rewrite throw_if_then, Nat.eqb_refl. cbn [negb].
  destruct head as [|h0 head0] eqn:Eh; [done|]. rewrite throw_if_then. rewrite <- Eh in *. destruct (max_element_spec head Hne) as (m & -> & Hm & _). rewrite bind_S. apply (csr_head _ _ _ Hc) in Hm. rewrite throw_if_then. destruct (Nat.leb_spec (length fo - 1) m) as [|_]; [lia|].
  unfold throw_if. replace (existsb _ ws) with false; [done|]. symmetry. apply not_true_is_false. rewrite existsb_exists. intros (w & Hin & Hb). apply elem_of_list_In in Hin. rewrite Forall_forall in Hw. rewrite (Hw _ Hin), Nat.eqb_refl in Hb. done.
Qed.
Lemma stores_tails n fo head w arcs tail : stores n fo head w arcs -> tails_ok fo tail head -> forall e t h x, arcs !! e = Some (t, h, x) -> tail !! e = Some t /\ head !! e = Some h /\ w !! e = Some x.
Proof. intros (_ & _ & _ & H) [_ Ht] e t h x He. destruct (H _ _ _ _ He) as (H1 & H2 & H3). split; [by apply Ht|done]. Qed.
Lemma export_spec fo tail head w arcs : stored_graph fo tail head w -> head <> [] -> stores (length fo - 1) fo head w arcs ->
  exists file, export_road_dimacs_graph (id_file fo) (id_file head) (word_file w) = Some (Ret file) /\ dimacs_file (length fo - 1) arcs file.
Proof.
  intros [Hc Ht Hw Fn Fm Hww] Hne Hst. destruct (csr_fits _ _ Hc Fn Fm) as [F1 F2]. unfold export_road_dimacs_graph. rewrite (load_id_file fo F1), (load_id_file head F2), (load_word_file w Hww). cbn [andthen].
  destruct (tails_exist _ _ Hc) as (tail' & -> & Ht'). rewrite bind_S, (tails_unique _ _ _ _ _ Hc Ht' Ht). rewrite check_arrays_spec; [|done|done|by repeat constructor]. cbn [andthen]. unfold print_arcs.
  set (n := length fo - 1) in *. assert (fits32 (S n)) as Fn' by (by rewrite <- (csr_len _ _ _ Hc)). assert (fits32 n) as Fn'' by (unfold fits32 in *; lia).
  destruct (print_header_line n (length head) Fn'' Fm) as (hl & -> & Hh1 & Hh2).
  pose proof (stores_tails _ _ _ _ _ _ Hst Ht) as Harc. destruct Hst as (_ & _ & La & _). rewrite <- La in Hh2.
  destruct (for_range_inv (fun i out => exists ls, out = concat ((fun l => l ++ [10%N]) <$> (hl :: ls)) /\ Forall (fun l => 10%N ∉ l) ls /\ arc_lines ls (take i arcs))
    (fun i out => t ← tail !! i; h ← head !! i; w ← w !! i; Some (out ++ print_arc t h w)) 0 (length head) (hl ++ [10%N])) as (out & -> & ls & -> & Hn & Hls); [lia| | |].
  - exists []. split; [cbn; by rewrite app_nil_r|]. split; constructor.
  - intros i out Hi (ls & -> & Hn & Hls). destruct (lookup_lt_is_Some_2 arcs i) as [[[t h] x] Ha]; [lia|]. destruct (Harc _ _ _ _ Ha) as (E1 & E2 & E3). rewrite E1, bind_S, E2, bind_S, E3, bind_S.
    assert (t < n) as Htn. { apply (csr_tails_lt _ _ _ _ Hc) in Ht. by eapply Forall_lookup_1 in Ht. } assert (h < n) as Hhn. { apply (csr_head _ _ _ Hc). by eapply elem_of_list_lookup_2. } assert (x < 2 ^ 32)%N as Hx by (by eapply Forall_lookup_1 in Hww).
    destruct (print_arc_line n t h x Fn' Htn Hhn Hx) as (l & -> & Hl1 & Hl2). eexists. split; [done|]. exists (ls ++ [l]). split; [|split].
    + change (hl :: ls ++ [l]) with ((hl :: ls) ++ [l]). rewrite fmap_app, concat_app. f_equal. cbn. by rewrite app_nil_r.
    + apply Forall_app. split; [done|]. by repeat constructor.
    + rewrite (take_S_r _ _ _ Ha). clear -Hls Hl2. induction Hls; cbn [app]; [|by constructor|by constructor]. constructor; [done|constructor].
  - rewrite bind_S. eexists. split; [done|]. exists [], hl, ls. split; [|split; [constructor|split; [done|]]].
    + split; [by constructor|]. by left.
    + rewrite <- La, firstn_all in Hls. done.
Qed.

(** Storing determines the arrays. *)
Lemma stores_exists n fo tail head w : csr n fo head -> tails_ok fo tail head -> length w = length head -> exists arcs, stores n fo head w arcs.
Proof.
  intros Hc [Lt Ht] Hw. exists (zip (zip tail head) w). split; [done|]. split; [done|]. split; [rewrite !zip_with_length; lia|]. intros e t h x He.
  apply lookup_zip_with_Some in He as ([t' h'] & x' & [= -> -> ->] & H1 & H2). apply lookup_zip_with_Some in H1 as (t2 & h2 & E2 & H1 & H3); simplify_eq. split; [|done].
  destruct (csr_tail_exists _ _ _ e Hc) as (y & _ & Hy); [by eapply lookup_lt_Some|]. pose proof (Ht _ _ Hy). by simplify_eq.
Qed.
Lemma stores_unique n fo head w fo' head' w' arcs : stores n fo head w arcs -> stores n fo' head' w' arcs -> fo = fo' /\ head = head' /\ w = w'.
Proof.
  intros (C1 & L1 & M1 & H1) (C2 & L2 & M2 & H2). assert (forall e, e < length arcs -> exists t h x, arcs !! e = Some (t, h, x)) as Hl. { intros e He. destruct (lookup_lt_is_Some_2 arcs e He) as [[[t h] x] E]. by exists t, h, x. }
  assert (head = head') as <-.
  { apply list_eq. intros e. destruct (decide (e < length arcs)) as [He|]; [|by rewrite !lookup_ge_None_2 by lia]. destruct (Hl e He) as (t & h & x & E). by destruct (H1 _ _ _ _ E) as (_ & -> & _), (H2 _ _ _ _ E) as (_ & -> & _). }
  split; [|split; [done|]].
  - assert (length fo - 1 = n) as E1 by (rewrite (csr_len _ _ _ C1); lia). assert (length fo' - 1 = n) as E2 by (rewrite (csr_len _ _ _ C2); lia).
    destruct (tails_exist fo head) as (t1 & _ & T1); [by rewrite E1|]. destruct (tails_exist fo' head) as (t2 & _ & T2); [by rewrite E2|].
    assert (t1 = t2) as <-. { apply list_eq. intros e. destruct (decide (e < length arcs)) as [He|]; [|rewrite !lookup_ge_None_2; [done|destruct T2; lia|destruct T1; lia]]. destruct (Hl e He) as (t & h & x & E). destruct (H1 _ _ _ _ E) as (O1 & _), (H2 _ _ _ _ E) as (O2 & _). by rewrite (proj2 T1 _ _ O1), (proj2 T2 _ _ O2). }
    destruct (csr_inverted _ _ _ _ C1 T1) as [_ I1]. destruct (csr_inverted _ _ _ _ C2 T2) as [_ I2]. congruence.
  - apply list_eq. intros e. destruct (decide (e < length arcs)) as [He|]; [|by rewrite !lookup_ge_None_2 by lia]. destruct (Hl e He) as (t & h & x & E). by destruct (H1 _ _ _ _ E) as (_ & _ & ->), (H2 _ _ _ _ E) as (_ & _ & ->).
Qed.
Lemma permuted_identity {A} (l l' : list A) : permuted_by (seq 0 (length l)) l l' -> l' = l.
Proof.
  intros [Hl H]. rewrite seq_length in Hl. apply list_eq. intros i. destruct (decide (i < length l)) as [Hi|]; [|by rewrite !lookup_ge_None_2 by lia]. apply (H i i). by apply lookup_seq_lt.
Qed.
Lemma stored_arcs_sorted n fo tail head w arcs arcs' : stores n fo head w arcs -> tails_ok fo tail head -> heads_sorted fo head -> arcs_sorted arcs arcs' -> arcs' = arcs.
Proof.
  intros Hst Ht Hs (r & Hlex & Hp). assert (length (tails_of arcs) = length arcs) as L1 by apply fmap_length. assert (length (heads_of arcs) = length arcs) as L2 by apply fmap_length.
  assert (r = seq 0 (length arcs)) as ->; [|by apply permuted_identity]. rewrite <- L1. apply (lex_identity (tails_of arcs) (heads_of arcs)); [lia|exact Hlex|].
  intros i j a b c d Hij Ha Hb Hc Hd. destruct Hst as (C & Lw & La & H). destruct (csr_inverted _ _ _ _ C Ht) as [Hsort _]. apply Sorted_StronglySorted in Hsort; [|intros ???; lia].
  destruct (lookup_lt_is_Some_2 arcs i) as [[[ti hi] xi] Ei]; [apply lookup_lt_Some in Ha; lia|]. destruct (lookup_lt_is_Some_2 arcs j) as [[[tj hj] xj] Ej]; [apply lookup_lt_Some in Hb; lia|].
  unfold tails_of, heads_of in *. rewrite list_lookup_fmap, Ei in Ha. rewrite list_lookup_fmap, Ei in Hc. rewrite list_lookup_fmap, Ej in Hb. rewrite list_lookup_fmap, Ej in Hd. cbn in Ha, Hb, Hc, Hd. injection Ha as ->. injection Hb as ->. injection Hc as ->. injection Hd as ->.
  destruct (H _ _ _ _ Ei) as (O1 & E1 & _), (H _ _ _ _ Ej) as (O2 & E2 & _). pose proof (proj2 Ht _ _ O1) as T1. pose proof (proj2 Ht _ _ O2) as T2.
  assert (a <= b) as Hab. { clear -Hsort Hij T1 T2. revert i j Hij T1 T2. induction Hsort as [|x l Hl IH Hf]; intros i j Hij T1 T2; [done|]. destruct j as [|j]; [lia|]. destruct i as [|i]; cbn in T1, T2; [|eapply (IH i j); [lia|done..]]. simplify_eq. rewrite Forall_forall in Hf. apply Hf. by eapply elem_of_list_lookup_2. }
  destruct (decide (a = b)) as [->|]; [|lia]. right. split; [done|]. eapply (Hs b i j); [done|done|lia|done|done].
Qed.
Lemma round_trip fo tail head w : stored_graph fo tail head w -> head <> [] -> heads_sorted fo head ->
  exists file, export_road_dimacs_graph (id_file fo) (id_file head) (word_file w) = Some (Ret file) /\ convert_road_dimacs_graph file = Some (Ret (id_file fo, id_file head, word_file w)).
Proof.
  intros Hg Hne Hs. destruct (stores_exists _ _ _ _ _ (sg_csr _ _ _ _ Hg) (sg_tail _ _ _ _ Hg) (sg_weight _ _ _ _ Hg)) as (arcs & Hst). destruct (export_spec _ _ _ _ _ Hg Hne Hst) as (file & E & Hd). exists file. split; [done|].
  pose proof (stores_tails _ _ _ _ _ _ Hst (sg_tail _ _ _ _ Hg)) as Harc. destruct Hg as [Hc Ht Hw Fn Fm Hww].
  destruct (convert_spec _ _ _ Hd) as (fo' & head' & w' & arcs' & -> & Hst' & Hsorted).
  - split; [by rewrite <- (csr_len _ _ _ Hc)|]. split; [destruct Hst as (_ & _ & -> & _); done|]. apply Forall_lookup_2. intros i [[t h] x] Ha. destruct (Harc _ _ _ _ Ha) as (E1 & E2 & E3). cbn [fst snd].
    split; [apply (csr_tails_lt _ _ _ _ Hc) in Ht; by eapply Forall_lookup_1 in Ht|]. split; [apply (csr_head _ _ _ Hc); by eapply elem_of_list_lookup_2|]. by eapply Forall_lookup_1 in Hww.
  - rewrite (stored_arcs_sorted _ _ _ _ _ _ _ Hst Ht Hs Hsorted) in Hst'. by destruct (stores_unique _ _ _ _ _ _ _ _ Hst Hst') as (-> & -> & ->).
Qed.
