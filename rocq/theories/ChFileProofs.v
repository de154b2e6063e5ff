(** Reading and writing of contraction hierarchies. *)
From Verif Require Import Base ProtobufModel BitVectorModel BitVectorSpec BitVectorProofs BitVectorBulkProofs UtilSpec PermutationModel PermutationProofs
  VectorIoModel VectorIoProofs Properties_VectorIo ChBuildModel ChFileModel ChFileSpec.
Ltac Zify.zify_post_hook ::= idtac.

Definition bytes (l : list N) : Prop := Forall (fun b => b < 256)%N l.
Definition id_bytes (v : list nat) : list N := concat (enc_id <$> v).
Definition word_bytes (v : list N) : list N := concat (le_bytes 4 <$> v).
Definition side_bytes (s : fside) : list N :=
  id_bytes (f_first_out s) ++ id_bytes (f_head s) ++ word_bytes (f_weight s) ++ concat (le_bytes 8 <$> bv_data (f_orig s)) ++
  id_bytes (f_first s) ++ id_bytes (f_second s).
Lemma write_side_bytes out s : write_side out s = out ++ side_bytes s.
Proof. unfold write_side, write_vector, write_bits, side_bytes, id_bytes, word_bytes. by rewrite <- !app_assoc. Qed.
Definition header_of (o : chobj) : fheader :=
  mkHeader ch_magic_number (u32 ((N.of_nat (length (f_first_out (o_fwd o))) + (2 ^ 64 - 1)) mod 2 ^ 64))
    (u32 (N.of_nat (length (f_head (o_fwd o))))) (u32 (N.of_nat (length (f_head (o_bwd o))))).
Lemma write_ch_bytes pad o : write_ch pad [] o =
  enc_header pad (header_of o) ++ id_bytes (o_rank o) ++ side_bytes (o_fwd o) ++ side_bytes (o_bwd o).
Proof. unfold write_ch. rewrite !write_side_bytes. unfold write_value, write_vector. cbn [app]. by rewrite <- !app_assoc. Qed.

(** ** Reading what was written *)
Lemma image_id : image 4 enc_id dec_id id_fits.
Proof.
  split; [lia|]. intros x Hx. split; [apply le_bytes_length|]. unfold dec_id, enc_id. rewrite le_word_bytes; [lia|]. exact Hx.
Qed.
Lemma read_ids_app k v rest : k = length v -> Forall id_fits v -> read_ids (N.of_nat k) (id_bytes v ++ rest) = Some (Ret (v, rest)).
Proof. intros -> Hv. unfold read_ids. rewrite Nat2N.id. f_equal. exact (C40_stream 4 enc_id dec_id id_fits v rest image_id Hv). Qed.
Lemma read_words_app k v rest : k = length v -> Forall (fun x => x < 2 ^ 32)%N v -> read_words (N.of_nat k) (word_bytes v ++ rest) = Some (Ret (v, rest)).
Proof.
  intros -> Hv. unfold read_words. rewrite Nat2N.id. f_equal. apply (C40_stream 4 (le_bytes 4) le_word (fun x => x < 2 ^ 32)%N v rest); [|done].
  apply (C40_unsigned 4). lia.
Qed.
Lemma u32_small x : (x < 2 ^ 32)%N -> u32 x = x.
Proof. apply N.mod_small. Qed.
Lemma read_side_app n s d rest : side_object s d -> side_fits n d -> id_fits (n + 1) ->
  exists s', read_side (N.of_nat n) (N.of_nat (length (cs_head d))) (side_bytes s ++ rest) = Some (Ret (s', rest)) /\ side_object s' d.
Proof.
  intros (H1 & H2 & H3 & Hb & H5 & H6) (L1 & L3 & L4 & L5 & L6 & Lh & F1 & F2 & F3 & F5 & F6) Hn.
  unfold read_side, side_bytes. rewrite <- !app_assoc. rewrite H1, H2, H3, H5, H6.
  rewrite u32_small by (unfold id_fits in Hn; lia). replace (N.of_nat n + 1)%N with (N.of_nat (length (cs_first_out d))) by lia.
  rewrite read_ids_app by done. cbn [andthen].
  rewrite read_ids_app by done. cbn [andthen]. rewrite read_words_app by done. cbn [andthen].
  destruct (C40_bits_stream (f_orig s) (cs_orig d) (id_bytes (cs_first d) ++ id_bytes (cs_second d) ++ rest) Hb) as (v' & E & Hv').
  unfold write_bits in E. cbn [app] in E. unfold read_flags at 1. rewrite Nat2N.id. rewrite L4 in E. rewrite E. cbn [andthen].
  rewrite read_ids_app by done. cbn [andthen]. rewrite read_ids_app by done. cbn [andthen].
  eexists. split; [done|]. by split_and!.
Qed.
Lemma header_round pad h : length pad = 4 -> (h_magic h < 2 ^ 64)%N -> (h_nodes h < 2 ^ 32)%N -> (h_fwd h < 2 ^ 32)%N -> (h_bwd h < 2 ^ 32)%N ->
  length (enc_header pad h) = 24 /\ dec_header (enc_header pad h) = h.
Proof.
  intros Hp Hm Hn Hf Hb. unfold enc_header, dec_header. split; [rewrite !app_length, !le_bytes_length; lia|].
  assert (forall k w l, take k (le_bytes k w ++ l) = le_bytes k w) as Ht by (intros; apply take_app_alt; by rewrite le_bytes_length).
  assert (forall k w l, drop k (le_bytes k w ++ l) = l) as Hd by (intros; apply drop_app_alt; by rewrite le_bytes_length).
  assert (forall l : list N, drop 12 l = drop 4 (drop 8 l)) as -> by (intros; by rewrite drop_drop).
  assert (forall l : list N, drop 16 l = drop 4 (drop 4 (drop 8 l))) as -> by (intros; by rewrite !drop_drop). rewrite !Hd, !Ht. rewrite !le_word_bytes by assumption. by destruct h.
Qed.
Lemma header_fits o : (h_magic (header_of o) < 2 ^ 64)%N /\ (h_nodes (header_of o) < 2 ^ 32)%N /\ (h_fwd (header_of o) < 2 ^ 32)%N /\ (h_bwd (header_of o) < 2 ^ 32)%N.
Proof. unfold header_of, u32. cbn. split; [done|]. split_and!; by apply N.mod_lt. Qed.
Lemma read_header_app pad o rest : length pad = 4 -> read_header (enc_header pad (header_of o) ++ rest) = Some (Ret (header_of o, rest)).
Proof.
  intros Hp. destruct (header_fits o) as (H1 & H2 & H3 & H4). destruct (header_round pad _ Hp H1 H2 H3 H4) as [El Ed].
  unfold read_header, read_value, read_bytes. rewrite decide_False by (rewrite app_length; lia). rewrite take_app_alt, drop_app_alt by done. rewrite Ed.
  cbn [andthen]. rewrite decide_False; [done|]. intros H. by apply H.
Qed.
Lemma header_object o c : ch_object o c -> ch_fits c ->
  header_of o = mkHeader ch_magic_number (N.of_nat (length (ch_rank c))) (N.of_nat (length (cs_head (ch_fwd c)))) (N.of_nat (length (cs_head (ch_bwd c)))).
Proof.
  intros (_ & _ & (H1 & H2 & _) & (_ & H3 & _)) (Hn & _ & _ & Hf & Hb). unfold header_of. rewrite H1, H2, H3.
  destruct Hf as (L1 & _ & _ & _ & _ & Lf & _). destruct Hb as (_ & _ & _ & _ & _ & Lb & _). unfold id_fits in *.
  rewrite L1. replace (N.of_nat (length (ch_rank c) + 1) + (2 ^ 64 - 1))%N with (N.of_nat (length (ch_rank c)) + 1 * 2 ^ 64)%N by lia.
  rewrite N.mod_add by done. rewrite N.mod_small by lia. rewrite !u32_small by lia. done.
Qed.
Lemma finish_read_app o c rest : ch_object o c -> ch_fits c ->
  exists o', finish_read (header_of o) (id_bytes (o_rank o) ++ side_bytes (o_fwd o) ++ side_bytes (o_bwd o) ++ rest) = Some (Ret (o', rest)) /\ ch_object o' c.
Proof.
  intros Ho Hc. rewrite (header_object o c Ho Hc). unfold finish_read. cbn [h_nodes h_fwd h_bwd].
  destruct Ho as (Hr & Hor & Hf & Hb). destruct Hc as (Hn & Hp & Hi & Ff & Fb). rewrite Hr.
  rewrite read_ids_app; [|done|]. 2:{ apply Forall_lookup. intros i x Hx. apply perm_lookup_lt in Hx; [|done]. unfold id_fits in *. lia. }
  cbn [andthen]. destruct (invert_permutation_correct _ Hp) as (q & -> & Hq & _). rewrite (inverse_of_unique _ _ _ Hq Hi).
  destruct (read_side_app _ _ _ (side_bytes (o_bwd o) ++ rest) Hf Ff Hn) as (f' & -> & Hf'). cbn [andthen].
  destruct (read_side_app _ _ _ rest Hb Fb Hn) as (b' & -> & Hb'). cbn [andthen]. eexists. split; [done|]. by split_and!.
Qed.

(** ** The size *)
Lemma id_bytes_length v : length (id_bytes v) = 4 * length v.
Proof. unfold id_bytes. rewrite (concat_length 4) by (intros; apply le_bytes_length). lia. Qed.
Lemma word_bytes_length v : length (word_bytes v) = 4 * length v.
Proof. unfold word_bytes. rewrite (concat_length 4) by (intros; apply le_bytes_length). lia. Qed.
Lemma nblocks n : N.of_nat ((n + 511) / 512) = ((N.of_nat n + 511) / 512)%N.
Proof. rewrite Nat2N.inj_div, Nat2N.inj_add. done. Qed.
Lemma side_bytes_length n s d : side_object s d -> side_fits n d ->
  N.of_nat (length (side_bytes s)) = (4 * (N.of_nat n + 1) + 4 * 4 * N.of_nat (length (cs_head d)) + 64 * ((N.of_nat (length (cs_head d)) + 511) / 512))%N.
Proof.
  intros (H1 & H2 & H3 & Hb & H5 & H6) (L1 & L3 & L4 & L5 & L6 & _).
  unfold side_bytes. rewrite !app_length, !id_bytes_length, word_bytes_length, (concat_length 8) by (intros; apply le_bytes_length).
  rewrite H1, H2, H3, H5, H6, L1, L3, L5, L6. rewrite (rep_len _ _ Hb), L4. rewrite <- nblocks. remember ((length (cs_head d) + 511) / 512) as k. lia.
Qed.
Lemma write_size pad o c : length pad = 4 -> ch_object o c -> ch_fits c ->
  N.of_nat (length (write_ch pad [] o)) = size_of_file (N.of_nat (length (ch_rank c))) (N.of_nat (length (cs_head (ch_fwd c)))) (N.of_nat (length (cs_head (ch_bwd c)))).
Proof.
  intros Hp Ho Hc. rewrite write_ch_bytes. destruct (header_fits o) as (H1 & H2 & H3 & H4). destruct (header_round pad _ Hp H1 H2 H3 H4) as [El _].
  pose proof Ho as (Hr & Hor & Hf & Hb). pose proof Hc as (Hn & Hpm & Hi & Ff & Fb).
  rewrite !app_length, El, id_bytes_length. rewrite !Nat2N.inj_add. rewrite (side_bytes_length _ _ _ Hf Ff), (side_bytes_length _ _ _ Hb Fb). rewrite Hr.
  unfold size_of_file. lia.
Qed.
(** Number of four-byte words outside of the header and the flags. *)
Definition words_in (h : fheader) : N := (3 * h_nodes h + 2 + 4 * h_fwd h + 4 * h_bwd h)%N.
Definition header_32 (h : fheader) : Prop := (h_nodes h < 2 ^ 32 /\ h_fwd h < 2 ^ 32 /\ h_bwd h < 2 ^ 32)%N.
Lemma expected_words h : header_32 h ->
  expected_file_size h = (24 + 4 * u32 (words_in h) + u32 (h_bwd h + 511) / 512 * 64 + u32 (h_fwd h + 511) / 512 * 64)%N.
Proof.
  intros (Hn & Hf & Hb). unfold expected_file_size.
  assert (u32 (h_nodes h + u32 (u32 (h_nodes h + 1) + u32 (4 * h_fwd h)) + u32 (u32 (h_nodes h + 1) + u32 (4 * h_bwd h))) = u32 (words_in h)) as ->.
  { assert (forall a b, u32 (a + u32 b) = u32 (a + b)) as Hr by (intros; unfold u32; by rewrite N.add_mod_idemp_r).
    assert (forall a b, u32 (u32 a + b) = u32 (a + b)) as Hl by (intros; unfold u32; by rewrite N.add_mod_idemp_l).
    assert (forall a, u32 (u32 (h_nodes h + 1) + u32 (4 * a)) = u32 (h_nodes h + 1 + 4 * a)) as Hs by (intros; by rewrite Hl, Hr).
    rewrite !Hs, Hr. rewrite <- (Hl (h_nodes h + u32 _)%N), Hr, Hl. unfold words_in.
    f_equal. lia. }
  assert (forall x, u32 x < 2 ^ 32)%N as Hlt by (intros; by apply N.mod_lt).
  assert (forall x, u32 (u32 x / 512 * 64) = u32 x / 512 * 64)%N as Hs.
  { intros x. apply u32_small. pose proof (N.div_lt_upper_bound (u32 x) 512 (2 ^ 23) ltac:(done) (Hlt x)) as H. lia. }
  rewrite !Hs. apply N.mod_small. pose proof (Hlt (words_in h)).
  pose proof (N.div_lt_upper_bound (u32 (h_bwd h + 511)) 512 (2 ^ 23) ltac:(done) (Hlt _)) as H1.
  pose proof (N.div_lt_upper_bound (u32 (h_fwd h + 511)) 512 (2 ^ 23) ltac:(done) (Hlt _)) as H2. lia.
Qed.
Lemma size_words h : size_of_file (h_nodes h) (h_fwd h) (h_bwd h) = (24 + 4 * words_in h + (h_bwd h + 511) / 512 * 64 + (h_fwd h + 511) / 512 * 64)%N.
Proof. unfold size_of_file, words_in. set ((h_bwd h + 511) / 512)%N as x. set ((h_fwd h + 511) / 512)%N as y. lia. Qed.
Lemma expected_exact h : header_32 h -> (words_in h < 2 ^ 32)%N -> expected_file_size h = size_of_file (h_nodes h) (h_fwd h) (h_bwd h).
Proof.
  intros H32 Hw. rewrite expected_words, size_words by done. rewrite u32_small by done. unfold words_in in Hw. rewrite !u32_small by lia. done.
Qed.
Lemma expected_wraps h : header_32 h -> (2 ^ 32 <= words_in h)%N -> (expected_file_size h < size_of_file (h_nodes h) (h_fwd h) (h_bwd h))%N.
Proof.
  intros H32 Hw. rewrite expected_words, size_words by done.
  assert (u32 (words_in h) < 2 ^ 32)%N by (by apply N.mod_lt).
  assert (forall x, u32 x / 512 <= x / 512)%N as Hd. { intros x. apply N.div_le_mono; [done|]. apply N.mod_le. done. }
  pose proof (Hd (h_bwd h + 511)%N) as H1. pose proof (Hd (h_fwd h + 511)%N) as H2.
  set (u32 (h_bwd h + 511) / 512)%N as a in *. set (u32 (h_fwd h + 511) / 512)%N as b in *. set ((h_bwd h + 511) / 512)%N as a' in *. set ((h_fwd h + 511) / 512)%N as b' in *.
  lia.
Qed.

(** ** What a file that can be read looks like *)
Lemma bytes_app l k : bytes (l ++ k) <-> bytes l /\ bytes k.
Proof. apply Forall_app. Qed.
Lemma groups_ids n bs : bytes bs -> length bs = n * 4 -> concat (enc_id <$> (dec_id <$> groups n 4 bs)) = bs.
Proof.
  intros Hb Hl. rewrite <- list_fmap_compose. rewrite <- (groups_all n 4 bs) at 2 by done. f_equal. rewrite <- (list_fmap_id (groups n 4 bs)) at 2.
  apply list_fmap_ext. intros i g Hg. change (enc_id (dec_id g) = g). unfold enc_id, dec_id. rewrite N2Nat.id.
  pose proof (Forall_lookup_1 _ _ _ _ (groups_each n 4 bs Hl) Hg) as E4. cbv beta in E4. rewrite <- E4 at 1. apply le_bytes_word.
  exact (Forall_lookup_1 _ _ _ _ (groups_bytes n 4 bs Hb) Hg).
Qed.
Lemma groups_words k n bs : bytes bs -> length bs = n * k -> concat (le_bytes k <$> (le_word <$> groups n k bs)) = bs.
Proof.
  intros Hb Hl. rewrite <- list_fmap_compose. rewrite <- (groups_all n k bs) at 2 by done. f_equal. rewrite <- (list_fmap_id (groups n k bs)) at 2.
  apply list_fmap_ext. intros i g Hg. change (le_bytes k (le_word g) = g).
  pose proof (Forall_lookup_1 _ _ _ _ (groups_each n k bs Hl) Hg) as E4. cbv beta in E4. rewrite <- E4 at 1. apply le_bytes_word.
  exact (Forall_lookup_1 _ _ _ _ (groups_bytes n k bs Hb) Hg).
Qed.
Lemma read_ids_inv size inp v rest : bytes inp -> read_ids size inp = Some (Ret (v, rest)) -> length v = N.to_nat size /\ inp = id_bytes v ++ rest.
Proof.
  intros Hb. unfold read_ids, read_vector, read_bytes. case_decide as Hl; [done|]. intros [= <- <-]. split; [by rewrite fmap_length, groups_length|].
  unfold id_bytes. rewrite groups_ids; [by rewrite take_drop|by apply Forall_take|]. rewrite take_length. lia.
Qed.
Lemma read_words_inv size inp v rest : bytes inp -> read_words size inp = Some (Ret (v, rest)) -> length v = N.to_nat size /\ inp = word_bytes v ++ rest.
Proof.
  intros Hb. unfold read_words, read_vector, read_bytes. case_decide as Hl; [done|]. intros [= <- <-]. split; [by rewrite fmap_length, groups_length|].
  unfold word_bytes. rewrite groups_words; [by rewrite take_drop|by apply Forall_take|]. rewrite take_length. lia.
Qed.
Lemma read_flags_inv size inp v rest : bytes inp -> read_flags size inp = Some (Ret (v, rest)) ->
  bv_size v = N.to_nat size /\ length (bv_data v) = (N.to_nat size + 511) / 512 * 8 /\ inp = concat (le_bytes 8 <$> bv_data v) ++ rest.
Proof.
  intros Hb. unfold read_flags, read_bits, read_bytes. rewrite N2Nat.id.
  assert (N.to_nat size = 0 -> (N.to_nat size + 511) / 512 = 0) as Hz by (by intros ->).
  remember ((N.to_nat size + 511) / 512) as k eqn:Ek. clear Ek. case_decide as Hl; [done|]. intros [= <- <-]. unfold loaded. cbn [fst snd].
  case_decide as H0.
  - subst size. rewrite Hz by done. cbn. by rewrite drop_0.
  - cbn [bv_size bv_data]. split; [done|]. split; [by rewrite fmap_length, groups_length|].
    rewrite groups_words; [by rewrite take_drop|by apply Forall_take|]. rewrite take_length. lia.
Qed.
Lemma andthen_inv {A B} (m : option (result A)) (k : A -> option (result B)) y : andthen m k = Some (Ret y) -> exists x, m = Some (Ret x) /\ k x = Some (Ret y).
Proof. destruct m as [[x|]|]; cbn; try done. intros H. by exists x. Qed.
Lemma read_side_inv nodes arcs inp s rest : bytes inp -> read_side nodes arcs inp = Some (Ret (s, rest)) ->
  inp = side_bytes s ++ rest /\ length (f_first_out s) = N.to_nat (u32 (nodes + 1)) /\ length (f_head s) = N.to_nat arcs /\ length (f_weight s) = N.to_nat arcs /\
  bv_size (f_orig s) = N.to_nat arcs /\ length (bv_data (f_orig s)) = (N.to_nat arcs + 511) / 512 * 8 /\ length (f_first s) = N.to_nat arcs /\ length (f_second s) = N.to_nat arcs.
Proof.
  intros Hb. unfold read_side.
  intros ([v1 i1] & E1 & H)%andthen_inv. apply read_ids_inv in E1 as [L1 ->]; [|done]. apply bytes_app in Hb as [_ Hb].
  apply andthen_inv in H as ([v2 i2] & E1 & H). apply read_ids_inv in E1 as [L2 ->]; [|done]. apply bytes_app in Hb as [_ Hb].
  apply andthen_inv in H as ([v3 i3] & E1 & H). apply read_words_inv in E1 as [L3 ->]; [|done]. apply bytes_app in Hb as [_ Hb].
  apply andthen_inv in H as ([v4 i4] & E1 & H). apply read_flags_inv in E1 as (L4 & L4' & ->); [|done]. apply bytes_app in Hb as [_ Hb].
  apply andthen_inv in H as ([v5 i5] & E1 & H). apply read_ids_inv in E1 as [L5 ->]; [|done]. apply bytes_app in Hb as [_ Hb].
  apply andthen_inv in H as ([v6 i6] & E1 & H). apply read_ids_inv in E1 as [L6 ->]; [|done].
  injection H as <- <-. unfold side_bytes. cbn. split; [by rewrite <- !app_assoc|]. done.
Qed.
Lemma read_header_inv inp h rest : bytes inp -> read_header inp = Some (Ret (h, rest)) ->
  h_magic h = ch_magic_number /\ header_32 h /\ exists pad, length pad = 4 /\ inp = enc_header pad h ++ rest.
Proof.
  intros Hb. unfold read_header, read_value, read_bytes. case_decide as Hl; [done|]. cbn [andthen]. case_decide as Hm; [done|]. intros [= <- <-].
  split; [by destruct (decide (h_magic (dec_header (take 24 inp)) = ch_magic_number))|].
  assert (exists a1 a2 a3 a4 a5, take 24 inp = a1 ++ a2 ++ a3 ++ a4 ++ a5 /\ length a1 = 8 /\ length a2 = 4 /\ length a3 = 4 /\ length a4 = 4 /\ length a5 = 4) as
    (a1 & a2 & a3 & a4 & a5 & E & L1 & L2 & L3 & L4 & L5).
  { set (t := take 24 inp). assert (length t = 24) as Ht by (unfold t; rewrite take_length; lia).
    exists (take 8 t), (take 4 (drop 8 t)), (take 4 (drop 12 t)), (take 4 (drop 16 t)), (drop 20 t).
    split.
    - rewrite <- (take_drop 8 t) at 1. f_equal. rewrite <- (take_drop 4 (drop 8 t)) at 1. f_equal. rewrite drop_drop.
      rewrite <- (take_drop 4 (drop (8 + 4) t)) at 1. f_equal. rewrite drop_drop. rewrite <- (take_drop 4 (drop (8 + 4 + 4) t)) at 1. f_equal. by rewrite drop_drop.
    - rewrite !take_length, !drop_length. lia. }
  assert (bytes (take 24 inp)) as Hb' by (by apply Forall_take). rewrite E in Hb'. rewrite !bytes_app in Hb'. destruct Hb' as (B1 & B2 & B3 & B4 & B5).
  assert (dec_header (take 24 inp) = mkHeader (le_word a1) (le_word a2) (le_word a3) (le_word a4)) as Ed.
  { rewrite E. unfold dec_header. assert (forall l : list N, drop 12 l = drop 4 (drop 8 l)) as -> by (intros; by rewrite drop_drop).
    assert (forall l : list N, drop 16 l = drop 4 (drop 4 (drop 8 l))) as -> by (intros; by rewrite !drop_drop).
    rewrite (drop_app_alt a1), (drop_app_alt a2), (drop_app_alt a3) by done. rewrite !take_app_alt by done. done. }
  rewrite Ed. split.
  - split; cbn; [|split].
    + pose proof (le_word_lt a2 B2) as H. rewrite L2 in H. exact H.
    + pose proof (le_word_lt a3 B3) as H. rewrite L3 in H. exact H.
    + pose proof (le_word_lt a4 B4) as H. rewrite L4 in H. exact H.
  - exists a5. split; [done|]. unfold enc_header. cbn [h_magic h_nodes h_fwd h_bwd].
    assert (forall k bs, bytes bs -> length bs = k -> le_bytes k (le_word bs) = bs) as Hw by (intros k bs Hbs <-; by apply le_bytes_word).
    rewrite !Hw by done.
    rewrite <- (take_drop 24 inp) at 1. rewrite E. rewrite <- !app_assoc. done.
Qed.
Lemma finish_read_inv h inp o rest : bytes inp -> finish_read h inp = Some (Ret (o, rest)) ->
  inp = id_bytes (o_rank o) ++ side_bytes (o_fwd o) ++ side_bytes (o_bwd o) ++ rest /\ length (o_rank o) = N.to_nat (h_nodes h) /\
  invert_permutation (o_rank o) = Some (o_order o) /\
  read_side (h_nodes h) (h_fwd h) (side_bytes (o_fwd o) ++ side_bytes (o_bwd o) ++ rest) = Some (Ret (o_fwd o, side_bytes (o_bwd o) ++ rest)) /\
  read_side (h_nodes h) (h_bwd h) (side_bytes (o_bwd o) ++ rest) = Some (Ret (o_bwd o, rest)).
Proof.
  intros Hb. unfold finish_read. intros ([v1 i1] & E1 & H)%andthen_inv. apply read_ids_inv in E1 as [L1 ->]; [|done]. apply bytes_app in Hb as [_ Hb].
  destruct (invert_permutation v1) as [ord|] eqn:Eo; [|done].
  apply andthen_inv in H as ([f i2] & E2 & H). pose proof E2 as E2'. apply read_side_inv in E2' as [-> _]; [|done]. apply bytes_app in Hb as [_ Hb].
  apply andthen_inv in H as ([b i3] & E3 & H). pose proof E3 as E3'. apply read_side_inv in E3' as [-> _]; [|done]. injection H as <- <-. cbn. done.
Qed.
