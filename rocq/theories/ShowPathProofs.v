(** Proofs about ShowPathModel. *)
From Verif Require Import Base ProtobufModel VectorIoModel UtilSpec GraphSpec PathSpec ChCleanSpec ChBuildModel ChSpec
  ChQueryModel ChApiSpec ChApiProofs Properties_ChQuery ChFileModel ChFileSpec DistanceToolModel DistanceToolSpec DistanceToolProofs DistanceToolChProofs
  TextModel TextSpec TextProofs VectorToolSpec VectorToolProofs CoordToolSpec CoordToolModel CoordToolProofs ShowPathModel.
From Verif Require CchQueryProofs.
From Verif Require Import ShowPathSpec WalkSpec.
Ltac Zify.zify_post_hook ::= idtac.

(** ** The input *)
Lemma read_word_number l v rest : read_unsigned 32 l = Some (v, rest) <-> word_number v l rest.
Proof. apply read_unsigned_iff. Qed.
Lemma word_number_unique v l rest v' rest' : word_number v l rest -> word_number v' l rest' -> v = v' /\ rest = rest'.
Proof. intros H%read_word_number H'%read_word_number. rewrite H in H'. by injection H'. Qed.
Lemma word_number_shorter v l rest : word_number v l rest -> length rest < length l.
Proof.
  intros (x & (b & s & -> & _ & Hs & _) & _). rewrite !app_length. assert (0 < length s); [|lia]. inversion Hs as [ds y Hn|ds y Hn|ds y Hn]; subst; cbn [length]; try lia.
  destruct (numeral_value _ _ Hn) as [Hne _]. destruct s; [done|cbn [length]; lia].
Qed.
Lemma queries_exist input : exists qs, queries_of input qs.
Proof.
  remember (length input) as k eqn:Ek. revert input Ek. induction (lt_wf k) as [k _ IH]. intros input ->.
  destruct (read_unsigned 32 input) as [[s l1]|] eqn:E1.
  2:{ exists [], input. split; [constructor|]. intros (s & t & l1 & l2 & H%read_word_number & _). by rewrite H in E1. }
  destruct (read_unsigned 32 l1) as [[t l2]|] eqn:E2.
  2:{ exists [], input. split; [constructor|]. intros (s' & t & l1' & l2 & H%read_word_number & H2%read_word_number). rewrite H in E1. injection E1 as -> ->. by rewrite H2 in E2. }
  apply read_word_number in E1, E2. pose proof (word_number_shorter _ _ _ E1). pose proof (word_number_shorter _ _ _ E2).
  destruct (IH (length l2) ltac:(lia) l2 eq_refl) as (qs & rest & Hq & Hr). exists ((s, t) :: qs), rest. split; [|done]. by econstructor.
Qed.
Lemma queries_unique input qs qs' : queries_of input qs -> queries_of input qs' -> qs = qs'.
Proof.
  intros (rest & H & Hr) (rest' & H' & Hr'). revert qs' H'. induction H as [l|s t qs l l1 l2 rest H1 H2 _ IH]; intros qs' H'.
  - inversion H' as [|s t qs l0 l1 l2 r H1 H2 H3]; subst; [done|]. destruct Hr. by exists s, t, l1, l2.
  - inversion H' as [l0 E1 E2|s' t' qs'' l0 l1' l2' r' H1' H2' H3]; subst. { destruct Hr'. by exists s, t, l1, l2. }
    destruct (word_number_unique _ _ _ _ _ H1 H1') as [<- <-]. destruct (word_number_unique _ _ _ _ _ H2 H2') as [<- <-]. f_equal. by apply IH.
Qed.

(** ** Documents *)
Section documents.
Context {F : Type} (show : F -> list N) (latitude longitude : list F).
Lemma show_node_spec x : x < length latitude -> x < length longitude ->
  exists lat lon, latitude !! x = Some lat /\ longitude !! x = Some lon /\ show_node show latitude longitude x = Some (position show lat lon).
Proof.
  intros H1 H2. destruct (lookup_lt_is_Some_2 _ _ H1) as [a Ha]. destruct (lookup_lt_is_Some_2 _ _ H2) as [b Hb]. exists a, b. split; [done|]. split; [done|].
  unfold show_node. by rewrite Ha, Hb, !bind_S.
Qed.
Definition at_node (x : nat) (pos : list N) : Prop := exists lat lon, latitude !! x = Some lat /\ longitude !! x = Some lon /\ pos = position show lat lon.
Lemma show_nodes_spec n path : n <= length latitude -> n <= length longitude -> Forall (fun x => x < n) path -> forall out,
  exists points, show_nodes show latitude longitude path out = Some (out ++ indented ((fun p => (4, p)) <$> points)) /\ Forall2 at_node path points.
Proof.
  intros H1 H2. induction 1 as [|x path Hx _ IH]; intros out; cbn [show_nodes].
  - exists []. split; [|constructor]. by rewrite app_nil_r.
  - destruct (show_node_spec x) as (a & b & Ha & Hb & ->); [lia|lia|]. rewrite bind_S. destruct (IH (out ++ line_of 4 (position show a b))) as (points & -> & Hp).
    exists (position show a b :: points). split; [|constructor; [by exists a, b|done]]. f_equal. by rewrite <- app_assoc.
Qed.
Lemma indented_app a b : indented (a ++ b) = indented a ++ indented b.
Proof. unfold indented. by rewrite fmap_app, concat_app. Qed.
Lemma indented_cons k l b : indented ((k, l) :: b) = line_of k l ++ indented b.
Proof. done. Qed.
Lemma document_eq a b d points : show_head a b d ++ indented ((fun p => (4, p)) <$> points) ++ show_end = indented (kml a b (print_unsigned d) points).
Proof.
  unfold kml, point, placemark, show_head, show_end, txt.
  repeat (rewrite indented_app || rewrite indented_cons || rewrite <- app_assoc || rewrite app_nil_l || rewrite <- app_comm_cons).
  change (indented []) with (@nil N). rewrite !app_nil_r. done.
Qed.
End documents.

(** ** Queries *)
Section queries.
Context {F : Type} (show : F -> list N) (latitude longitude : list F) (n : nat) (tail head : list nat) (w : list N) (c : ch).
Context (Hof : ch_of n tail head w c) (Hlat : n <= length latitude) (Hlon : n <= length longitude).
Definition reached (q : cquery) : Prop := exists ops G, khistory any_ch (c, KInit [] []) ops (c, G) /\ kexec_all ops (new_cquery c) = Some q.
Lemma reached_new : reached (new_cquery c).
Proof. exists [], (KInit [] []). split; [constructor|done]. Qed.
Lemma node_path_lt s p t us : awalk tail head s p t -> s < n -> t < n -> mapM (fun e => tail !! e) p = Some us -> Forall (fun x => x < n) us.
Proof.
  intros _ _ _ Hm. destruct Hof as ((_ & _ & Ht & _) & _). apply mapM_Some in Hm. apply Forall_forall. intros x Hx. apply elem_of_list_lookup in Hx as (i & Hi).
  destruct (Forall2_lookup_r _ _ _ _ _ Hm Hi) as (e & _ & He). rewrite Forall_forall in Ht. apply Ht. by eapply elem_of_list_lookup_2.
Qed.
Lemma distance_32 s t d : is_distance tail head w s t d -> (d < 2 ^ 64)%N.
Proof. intros (H & _). change (2 ^ 64)%N with 18446744073709551616%N. unfold inf_weight in H. lia. Qed.
Lemma show_query_spec q s t out : reached q -> s < n -> t < n ->
  exists doc q', show_query show latitude longitude q s t out = Some (out ++ doc, q') /\ reached q' /\ shows show latitude longitude tail head w s t doc.
Proof.
  intros (ops & G & Hh & Hq) Hs Ht. assert (any_ch c) as Hany by (by exists n, tail, head, w). assert (ch_nodes c = n) as Hn by (by eapply of_nodes).
  assert (khistory any_ch (c, KInit [] []) (ops ++ query_ops s t) (c, KDone [(s, 0%N)] [(t, 0%N)])) as Hh'.
  { eapply history_app; [exact Hh|]. apply query_history; by rewrite Hn. }
  destruct (C29_query _ _ _ _ _ _ _ _ _ Hany Hof Hh') as (q' & x & E & Hx & Hr & _). destruct (C30_path _ _ _ _ _ _ _ _ _ Hany Hof Hh') as (q2 & x2 & E2 & Hx2 & Hp1 & Hp2).
  rewrite E2 in E. injection E as ->. rewrite Hx in Hx2. injection Hx2 as <-. rename E2 into E.
  assert (kexec_all (query_ops s t) q = Some q') as E'.
  { unfold kexec_all in E, Hq. rewrite CchQueryProofs.for_each_app, Hq in E. exact E. }
  assert (is_distance tail head w s t x) as Hd. { apply route_distance; [|done]. destruct Hof as ((L1 & L2 & _) & _). congruence. }
  assert (exists nodes, cq_node_path q' = Some nodes /\ Forall (fun x => x < n) nodes /\ (x = inf_weight -> nodes = []) /\
    (x <> inf_weight -> exists p us, awalk tail head s p t /\ total w p = x /\ mapM (fun e => tail !! e) p = Some us /\ nodes = us ++ [t])) as (nodes & Hpath & Hlt & N1 & N2).
  { destruct (decide (x = inf_weight)) as [Ei|Ei].
    - destruct (Hp1 Ei) as [_ Hp]. exists []. split; [done|]. split; [constructor|]. split; [done|]. done.
    - destruct (Hp2 Ei) as (s' & ds & t' & dt & p & us & _ & _ & Hs' & Ht' & _ & Hp & Hb & Hu & Hnp). apply elem_of_list_singleton in Hs' as [= -> ->]. apply elem_of_list_singleton in Ht' as [= -> ->].
      exists (us ++ [t]). split; [done|]. split; [apply Forall_app; split; [by eapply node_path_lt|by apply Forall_singleton]|]. split; [done|]. intros _. exists p, us. split; [done|]. split; [lia|]. done. }
  unfold show_query. rewrite (query_exec _ _ _ _ _ E' Hx), bind_S.
  destruct (show_node_spec show latitude longitude s) as (la & lo & A1 & A2 & ->); [lia|lia|]. rewrite bind_S.
  destruct (show_node_spec show latitude longitude t) as (lb & lp & B1 & B2 & ->); [lia|lia|]. rewrite bind_S. rewrite Hpath, bind_S.
  destruct (show_nodes_spec show latitude longitude n nodes Hlat Hlon Hlt (out ++ show_head (position show la lo) (position show lb lp) x)) as (points & -> & Hpts). rewrite bind_S.
  exists (indented (kml (position show la lo) (position show lb lp) (print_unsigned x) points)), q'. split; [|split].
  - rewrite <- document_eq. by rewrite <- !app_assoc.
  - by exists (ops ++ query_ops s t), (KDone [(s, 0%N)] [(t, 0%N)]).
  - exists x, (print_unsigned x), nodes, points, (position show la lo), (position show lb lp). split; [done|]. split; [by apply print_unsigned_spec, (distance_32 s t)|].
    split; [done|]. split; [done|]. split; [|done]. constructor; [by exists la, lo|]. constructor; [by exists lb, lp|]. done.
Qed.
Lemma side_add_ch q s d q' : cq_add_source q s d = Some q' -> cq_ch q' = cq_ch q.
Proof. unfold cq_add_source. destruct (chk _); [|done]. rewrite bind_S. destruct (side_add _ _ _ _); [|done]. rewrite bind_S. by intros [= <-]. Qed.
Lemma side_add_outside s d side : n <= s -> side_add c s d side = None.
Proof. intros H. assert (ch_nodes c = n) as Hn by (by eapply of_nodes). unfold side_add. rewrite lookup_ge_None_2; [done|]. unfold ch_nodes in Hn. lia. Qed.
Lemma ch_query_outside q s t : cq_ch q = c -> n <= s \/ n <= t -> ch_query q s t = None.
Proof.
  intros Hc Hst. unfold ch_query. destruct (cq_reset q) as [q1|] eqn:E1; [|done]. rewrite bind_S.
  assert (cq_ch q1 = c) as H1. { unfold cq_reset in E1. destruct (clear_side (cq_fw q)); [|done]. rewrite bind_S in E1. destruct (clear_side (cq_bw q)); [|done]. rewrite bind_S in E1. by injection E1 as <-. }
  destruct (cq_add_source q1 s 0) as [q2|] eqn:E2; [|done]. rewrite bind_S. pose proof (side_add_ch _ _ _ _ E2) as H2.
  destruct (decide (n <= s)) as [Hs|Hs].
  - unfold cq_add_source in E2. destruct (chk _); [|done]. rewrite bind_S, H1, side_add_outside in E2 by done. done.
  - unfold cq_add_target. destruct (chk _); [|done]. rewrite bind_S, H2, H1, side_add_outside by lia. done.
Qed.
Definition within (st : N * N) : Prop := (fst st < N.of_nat n)%N /\ (snd st < N.of_nat n)%N.
Definition shown (st : N * N) (doc : list N) : Prop := shows show latitude longitude tail head w (N.to_nat (fst st)) (N.to_nat (snd st)) doc.
Lemma reached_ch q : reached q -> cq_ch q = c.
Proof.
  intros (ops & G & Hh & E). assert (any_ch c) as Hany by (by exists n, tail, head, w). destruct (khistory_run _ _ _ _ Hany Hh) as (q' & E' & Hq & _).
  rewrite E in E'. injection E' as <-. destruct Hq as [Hq _]. exact Hq.
Qed.
Lemma show_loop_spec qs input rest : queries_text qs input rest -> Forall within qs -> forall fuel q out, length input < fuel -> reached q ->
  exists docs fuel' q', Forall2 shown qs docs /\ length rest < fuel' /\ reached q' /\
    show_loop show fuel (N.of_nat n) latitude longitude q input out = show_loop show fuel' (N.of_nat n) latitude longitude q' rest (out ++ concat docs).
Proof.
  induction 1 as [rest|s t qs l l1 l2 rest H1 H2 _ IH]; intros Hw fuel q out Hf Hq.
  - exists [], fuel, q. split; [constructor|]. split; [done|]. split; [done|]. cbn [concat]. by rewrite app_nil_r.
  - apply Forall_cons in Hw as [[Ws Wt] Hw]. cbn [fst snd] in Ws, Wt. pose proof (word_number_shorter _ _ _ H1). pose proof (word_number_shorter _ _ _ H2).
    destruct fuel as [|fuel]; [lia|]. cbn [show_loop]. apply read_word_number in H1, H2. rewrite H1, bind_S. cbv beta iota. rewrite H2, bind_S. cbv beta iota.
    destruct (N.ltb_spec (N.of_nat n) s); [lia|]. destruct (N.ltb_spec (N.of_nat n) t); [lia|].
    destruct (show_query_spec q (N.to_nat s) (N.to_nat t) out Hq) as (doc & q1 & -> & Hq1 & Hd); [lia|lia|]. rewrite bind_S. cbv beta iota.
    destruct (IH Hw fuel q1 (out ++ doc)) as (docs & fuel' & q' & Hds & Hf' & Hq' & ->); [lia|done|].
    exists (doc :: docs), fuel', q'. split; [by constructor|]. split; [done|]. split; [done|]. cbn [concat]. by rewrite app_assoc.
Qed.
Lemma queries_split qs1 qs2 l rest : queries_text (qs1 ++ qs2) l rest -> exists l', queries_text qs1 l l' /\ queries_text qs2 l' rest.
Proof.
  revert l. induction qs1 as [|[s t] qs1 IH]; intros l H; cbn [app] in H; [exists l; by split; [constructor|]|].
  inversion H as [|s' t' qs l0 l1 l2 r H1 H2 H3]; subst. destruct (IH _ H3) as (l' & ? & ?). exists l'. split; [by econstructor|done].
Qed.
Theorem loop_all input qs q : queries_of input qs -> reached q -> Forall within qs ->
  exists docs, show_loop show (length input + 1) (N.of_nat n) latitude longitude q input [] = Some (concat docs, false) /\ Forall2 shown qs docs.
Proof.
  intros (rest & Ht & Hr) Hq Hw. destruct (show_loop_spec _ _ _ Ht Hw (length input + 1) q []) as (docs & fuel & q' & Hd & Hf & _ & ->); [lia|done|]. exists docs. split; [|done].
  destruct fuel as [|fuel]; [lia|]. cbn [show_loop]. rewrite app_nil_l.
  destruct (read_unsigned 32 rest) as [[s l1]|] eqn:E1; [|done]. rewrite bind_S. cbv beta iota. destruct (read_unsigned 32 l1) as [[t l2]|] eqn:E2; [|done].
  destruct Hr. apply read_word_number in E1, E2. by exists s, t, l1, l2.
Qed.
Theorem loop_outside input good s t more q : queries_of input (good ++ (s, t) :: more) -> reached q -> Forall within good ->
  exists docs, Forall2 shown good docs /\
    ((N.of_nat n < s \/ N.of_nat n < t)%N -> show_loop show (length input + 1) (N.of_nat n) latitude longitude q input [] = Some (concat docs, true)) /\
    ((s <= N.of_nat n /\ t <= N.of_nat n)%N -> ~ within (s, t) -> show_loop show (length input + 1) (N.of_nat n) latitude longitude q input [] = None).
Proof.
  intros (rest & Ht & _) Hq Hw. apply queries_split in Ht as (l' & Ht & Hb). destruct (show_loop_spec _ _ _ Ht Hw (length input + 1) q []) as (docs & fuel & q' & Hd & Hf & Hq' & E); [lia|done|].
  inversion Hb as [|s' t' qs l0 l1 l2 r H1 H2 _]; subst. apply read_word_number in H1, H2. exists docs. split; [done|]. rewrite E.
  destruct fuel as [|fuel]; [lia|]. cbn [show_loop]. rewrite app_nil_l, H1, bind_S. cbv beta iota. rewrite H2, bind_S. cbv beta iota. split.
  - intros Hst. destruct (N.ltb_spec (N.of_nat n) s); [done|]. destruct (N.ltb_spec (N.of_nat n) t); [done|]. lia.
  - intros [Hs Ht'] Hn. destruct (N.ltb_spec (N.of_nat n) s); [lia|]. destruct (N.ltb_spec (N.of_nat n) t); [lia|].
    unfold show_query. rewrite ch_query_outside; [done|by apply reached_ch|]. unfold within in Hn. cbn [fst snd] in Hn. lia.
Qed.
End queries.
