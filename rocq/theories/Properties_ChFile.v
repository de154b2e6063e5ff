(** C33: files of contraction hierarchies. *)
From Verif Require Import Base ProtobufModel BitVectorModel BitVectorSpec BitVectorProofs BitVectorBulkProofs UtilSpec GraphSpec PermutationModel PermutationProofs
  VectorIoModel VectorIoProofs Properties_VectorIo ChCleanSpec ChBuildModel ChSpec ChBuildProofs ChQueryModel ChApiSpec ChApiProofs Properties_ChQuery ChFileModel ChFileSpec ChFileProofs.
Ltac Zify.zify_post_hook ::= idtac.

(** Reading from a stream gives a hierarchy with the same contents and leaves the rest of the stream. *)
Theorem C33_stream : forall pad o c rest, length pad = 4 -> ch_object o c -> ch_fits c ->
  exists o', read_ch (write_ch pad [] o ++ rest) = Some (Ret (o', rest)) /\ ch_object o' c.
Proof.
  intros pad o c rest Hp Ho Hc. rewrite write_ch_bytes. unfold read_ch. rewrite <- !app_assoc. rewrite read_header_app by done. cbn [andthen].
  by apply finish_read_app.
Qed.
Print Assumptions C33_stream.
(** So does loading the file, if it has less than 2^32 numbers. *)
Definition numbers_in (c : ch) : N :=
  (3 * N.of_nat (length (ch_rank c)) + 2 + 4 * N.of_nat (length (cs_head (ch_fwd c))) + 4 * N.of_nat (length (cs_head (ch_bwd c))))%N.
Lemma fits_header o c : ch_object o c -> ch_fits c -> header_32 (header_of o) /\ words_in (header_of o) = numbers_in c.
Proof.
  intros Ho Hc. split; [apply header_fits|]. rewrite (header_object o c Ho Hc). done.
Qed.
Theorem C33_file : forall pad o c, length pad = 4 -> ch_object o c -> ch_fits c -> (numbers_in c < 2 ^ 32)%N ->
  exists o', load_ch (save_ch pad o) = Some (Ret o') /\ ch_object o' c.
Proof.
  intros pad o c Hp Ho Hc Hw. destruct (fits_header o c Ho Hc) as [H32 Ew]. unfold load_ch, save_ch, read_ch_sized.
  rewrite (write_size pad o c) by done. rewrite write_ch_bytes, read_header_app by done. cbn [andthen].
  rewrite decide_False. 2:{ rewrite expected_exact by (try done; by rewrite Ew). rewrite (header_object o c Ho Hc). cbn [h_nodes h_fwd h_bwd]. intros H. by apply H. }
  destruct (finish_read_app o c [] Ho Hc) as (o' & E & Ho'). rewrite !app_nil_r in E. rewrite E. cbn [andthen]. by exists o'.
Qed.
Print Assumptions C33_file.
(** Otherwise the file is refused, ... *)
Theorem C33_large : forall pad o c, length pad = 4 -> ch_object o c -> ch_fits c -> (2 ^ 32 <= numbers_in c)%N -> load_ch (save_ch pad o) = Some Throw.
Proof.
  intros pad o c Hp Ho Hc Hw. destruct (fits_header o c Ho Hc) as [H32 Ew]. unfold load_ch, save_ch, read_ch_sized.
  rewrite (write_size pad o c) by done. rewrite write_ch_bytes, read_header_app by done. cbn [andthen].
  rewrite decide_True; [done|]. rewrite <- Ew in Hw. pose proof (expected_wraps _ H32 Hw) as Hlt. rewrite (header_object o c Ho Hc) in Hlt |- *. cbn [h_nodes h_fwd h_bwd] in *. lia.
Qed.
Print Assumptions C33_large.

(** All hierarchies that can be constructed and whose sizes fit into 32 bits can be stored. *)
Lemma side_ok_fits n d : side_ok n d -> id_fits (length (cs_head d)) -> id_fits (n + 1) -> weights_below d -> Forall id_fits (cs_first d) -> Forall id_fits (cs_second d) -> side_fits n d.
Proof.
  intros [Hc Hw Ho Hf Hs Hu] Hh Hn Hb F1 F2. unfold side_fits. split_and!; try done; try (rewrite (csr_len _ _ _ Hc); lia).
  - apply Forall_lookup. intros i x Hx. unfold id_fits in *. assert (x <= length (cs_head d)); [|lia].
    eapply (csr_mono_le n _ _ i n); [exact Hc| |exact Hx|exact (csr_last _ _ _ Hc)]. apply lookup_lt_Some in Hx. rewrite (csr_len _ _ _ Hc) in Hx. lia.
  - apply Forall_lookup. intros i x Hx. unfold id_fits in *. assert (x < n); [|lia].
    apply (csr_head _ _ _ Hc). by eapply elem_of_list_lookup_2.
  - eapply Forall_impl; [exact Hb|]. cbn. intros x Hx. eapply N.le_lt_trans; [exact Hx|]. done.
Qed.
Lemma sarc_exists n d e : side_ok n d -> e < length (cs_head d) -> exists x y w, sarc d e x y w.
Proof.
  intros [Hc Hw _ _ _ _] He. destruct (csr_tail_exists _ _ _ e Hc He) as (x & _ & Hx).
  destruct (lookup_lt_is_Some_2 (cs_head d) e He) as [y Hy]. destruct (lookup_lt_is_Some_2 (cs_weight d) e ltac:(lia)) as [w Hww]. by exists x, y, w.
Qed.
Lemma entries_fit n tail head w c (sd : chside) (P : nat -> nat -> Prop) : side_ok n sd ->
  (forall e x y v, sarc sd e x y v -> exists o a b, side_entry sd e o a b /\ P a b) -> 
  (forall a b, P a b -> id_fits a /\ id_fits b) -> ch_ok n tail head w c -> Forall id_fits (cs_first sd) /\ Forall id_fits (cs_second sd).
Proof.
  intros Hs He HP _. assert (forall e, e < length (cs_head sd) -> exists a b, cs_first sd !! e = Some a /\ cs_second sd !! e = Some b /\ P a b) as H.
  { intros e Hlt. destruct (sarc_exists n sd e Hs Hlt) as (x & y & v & Ha). destruct (He _ _ _ _ Ha) as (o & a & b & (_ & H1 & H2) & H3). by exists a, b. }
  destruct Hs as [_ _ _ Hf Hg _].
  split; apply Forall_lookup; intros i x Hx; pose proof (lookup_lt_Some _ _ _ Hx) as Hlt; destruct (H i) as (a & b & H1 & H2 & H3); try lia;
    apply HP in H3 as [??]; congruence.
Qed.
Theorem C33_constructed : forall n tail head w c, ch_of n tail head w c -> (N.of_nat n + 1 < 2 ^ 32)%N -> (N.of_nat (length tail) <= 2 ^ 32)%N ->
  id_fits (length (cs_head (ch_fwd c))) -> id_fits (length (cs_head (ch_bwd c))) -> ch_fits c.
Proof.
  intros n tail head w c Hc Hn Ht Hf Hb. destruct (ch_of_fit _ _ _ _ _ Hc) as (Hok & Hnn & Hfit). destruct Hc as (Ha & _ & Wf & Wb). pose proof Hok as [Hl Hp Hr Hsf Hsb Ef Eb _].
  assert (length (ch_rank c) = n) as Hlr. { destruct Hr as [H _]. congruence. }
  set (P := fun a b => id_fits a /\ id_fits b).
  assert (forall s t x o a b, entry_ok tail head w (ch_order c) (ch_fwd c) (ch_bwd c) s t x o a b -> P a b) as HP.
  { intros s t x o a b. unfold entry_ok. destruct o.
    - intros (u & v & _ & _ & (H1 & H2 & _) & ->). destruct Ha as (La & _ & _ & Fh). pose proof (Forall_lookup_1 _ _ _ _ Fh H2) as Hv. cbn in Hv.
      apply lookup_lt_Some in H1. split; unfold id_fits; lia.
    - intros (z & x1 & x2 & (_ & H1 & _) & (_ & H2 & _) & _). apply lookup_lt_Some in H1, H2. unfold id_fits in *. split; unfold id_fits; lia. }
  destruct (entries_fit n tail head w c (ch_fwd c) P Hsf) as [F1 F2]; [|done|done|].
  { intros e x y v H. destruct (Ef _ _ _ _ H) as (o & a & b & H1 & H2). exists o, a, b. split; [done|]. by eapply HP. }
  destruct (entries_fit n tail head w c (ch_bwd c) P Hsb) as [B1 B2]; [|done|done|].
  { intros e x y v H. destruct (Eb _ _ _ _ H) as (o & a & b & H1 & H2). exists o, a, b. split; [done|]. by eapply HP. }
  assert (id_fits (n + 1)) as Hn1 by (unfold id_fits; lia).
  unfold ch_fits. rewrite Hlr. split_and!; [done|eapply inverse_of_perm; [exact Hp|exact Hr]|by apply UtilSpec.inverse_of_sym| |]; by apply side_ok_fits.
Qed.
Print Assumptions C33_constructed.
(** ... and so is that of a graph without arcs that has 1431655765 nodes. *)
Lemma bits_exist l : exists v, bv_rep v l.
Proof.
  destruct (make_spec (replicate (u64_count (length l)) 0%N) (length l) (fun i => nth i l false)) as (v & _ & Hv); [apply replicate_length|by apply words_replicate|].
  exists v. assert ((fun i => nth i l false) <$> seq 0 (length l) = l) as E; [|by rewrite E in Hv].
  apply list_eq. intros i. rewrite list_lookup_fmap. destruct (decide (i < length l)) as [Hi|Hi].
  - rewrite lookup_seq_lt by done. cbn. destruct (lookup_lt_is_Some_2 l i Hi) as [x Hx]. rewrite Hx. by rewrite (nth_lookup_Some _ _ _ _ Hx).
  - rewrite lookup_seq_ge by lia. cbn. by rewrite lookup_ge_None_2 by lia.
Qed.
Lemma object_exists c : exists o, ch_object o c.
Proof.
  destruct (bits_exist (cs_orig (ch_fwd c))) as [vf Hf]. destruct (bits_exist (cs_orig (ch_bwd c))) as [vb Hb].
  exists (mkObj (ch_rank c) (ch_order c) (mkFside (cs_first_out (ch_fwd c)) (cs_head (ch_fwd c)) (cs_weight (ch_fwd c)) vf (cs_first (ch_fwd c)) (cs_second (ch_fwd c)))
     (mkFside (cs_first_out (ch_bwd c)) (cs_head (ch_bwd c)) (cs_weight (ch_bwd c)) vb (cs_first (ch_bwd c)) (cs_second (ch_bwd c)))). done.
Qed.
Lemma no_arcs n c : ch_ok n [] [] [] c -> cs_head (ch_fwd c) = [] /\ cs_head (ch_bwd c) = [].
Proof.
  intros [_ _ _ Hsf Hsb Ef Eb _].
  assert (forall x, (forall e y v, ~ sarc (ch_fwd c) e x y v) /\ (forall e y v, ~ sarc (ch_bwd c) e x y v)) as H.
  { intros x. induction (lt_wf x) as [x _ IH].
    assert (forall v o a b s t, (s = x \/ t = x) -> ~ entry_ok [] [] [] (ch_order c) (ch_fwd c) (ch_bwd c) s t v o a b) as Hno.
    { intros v o a b s t Hst. unfold entry_ok. destruct o.
      - intros (u & v' & _ & _ & (H1 & _) & _). done.
      - intros (z & x1 & x2 & Hz1 & Hz2 & _). destruct Hst as [-> | ->].
        + apply (proj2 (IH z (so_up _ _ Hsb _ _ _ _ Hz1)) _ _ _ Hz1).
        + apply (proj1 (IH z (so_up _ _ Hsf _ _ _ _ Hz2)) _ _ _ Hz2). }
    split; intros e y v Ha.
    - destruct (Ef _ _ _ _ Ha) as (o & a & b & H1 & H2). eapply (Hno v o a b x y); [by left|exact H2].
    - destruct (Eb _ _ _ _ Ha) as (o & a & b & H1 & H2). eapply (Hno v o a b y x); [by right|exact H2]. }
  split.
  - destruct (cs_head (ch_fwd c)) as [|z l] eqn:E; [done|]. exfalso. destruct (sarc_exists n _ 0 Hsf) as (x & y & v & Ha); [rewrite E; cbn; lia|]. by apply (proj1 (H x)) in Ha.
  - destruct (cs_head (ch_bwd c)) as [|z l] eqn:E; [done|]. exfalso. destruct (sarc_exists n _ 0 Hsb) as (x & y & v & Ha); [rewrite E; cbn; lia|]. by apply (proj2 (H x)) in Ha.
Qed.
Theorem C33_size_refuted : exists c o, any_ch c /\ ch_fits c /\ ch_object o c /\ forall pad, length pad = 4 -> load_ch (save_ch pad o) = Some Throw.
Proof.
  assert (forall n, exists c, ch_of n [] [] [] c) as Hex.
  { intros n. assert (arc_list n [] [] []) as Ha by (repeat split; constructor). destruct (ch_build_ok true 500 n [] [] [] Ha) as (c & E & Hok).
    destruct (no_arcs n c (ch_full_ok _ _ _ _ _ Hok)) as [H1 H2]. exists c. split; [done|]. split; [exists true, 500; by left|].
    destruct Hok as [_ _ _ [_ Lf _ _ _ _] [_ Lb _ _ _ _] _ _ _]. rewrite H1 in Lf. rewrite H2 in Lb. unfold weights_below.
    apply nil_length_inv in Lf, Lb. rewrite Lf, Lb. split; constructor. }
  destruct (Hex (N.to_nat 1431655765)) as [c Hc]. destruct (object_exists c) as [o Ho].
  destruct (ch_of_fit _ _ _ _ _ Hc) as (Hok & Hn & _). destruct (no_arcs _ c Hok) as [H1 H2].
  assert (ch_fits c) as Hfit.
  { eapply C33_constructed; [exact Hc|rewrite N2Nat.id; done|done|rewrite H1; done|rewrite H2; done]. }
  exists c, o. split; [by eexists _, _, _, _|]. split; [done|]. split; [done|]. intros pad Hp. apply (C33_large pad o c); try done.
  unfold numbers_in. rewrite H1, H2. unfold ch_nodes in Hn. rewrite Hn, N2Nat.id. done.
Qed.
Print Assumptions C33_size_refuted.

(** A hierarchy that was only default constructed cannot be read back. *)
Theorem C33_default_refuted : forall pad, length pad = 4 -> read_ch (write_ch pad [] default_obj) = Some Throw.
Proof.
  intros pad Hp. rewrite write_ch_bytes. unfold read_ch. rewrite read_header_app by done. cbn [andthen].
  change (header_of default_obj) with (mkHeader ch_magic_number (2 ^ 32 - 1) 0 0). unfold finish_read. cbn [h_nodes].
  change (id_bytes (o_rank default_obj) ++ side_bytes (o_fwd default_obj) ++ side_bytes (o_bwd default_obj)) with (@nil N).
  unfold read_ids, read_vector, read_bytes. rewrite decide_True; [done|]. cbn [length]. assert (N.to_nat (2 ^ 32 - 1) <> 0) by lia. lia.
Qed.
Print Assumptions C33_default_refuted.

(** ** Any file *)
(** What is loaded fills the whole file and gives the same file when it is saved. (With 2^32-1 nodes there is no first_out.) *)
Theorem C33_loaded : forall file o, bytes file -> load_ch file = Some (Ret o) -> (N.of_nat (length (o_rank o)) + 1 < 2 ^ 32)%N ->
  N.of_nat (length file) = size_of_file (N.of_nat (length (o_rank o))) (N.of_nat (length (f_head (o_fwd o)))) (N.of_nat (length (f_head (o_bwd o)))) /\
  invert_permutation (o_rank o) = Some (o_order o) /\
  exists pad, length pad = 4 /\ file = save_ch pad o.
Proof.
  intros file o Hb. unfold load_ch, read_ch_sized. intros ([o' rest] & E & Eo)%andthen_inv Hn. injection Eo as ->.
  apply andthen_inv in E as ([h inp] & Eh & E). apply read_header_inv in Eh as (Hm & H32 & pad & Hp & ->); [|done].
  case_decide as Hs; [done|]. assert (expected_file_size h = N.of_nat (length (enc_header pad h ++ inp))) as Hsz.
  { destruct (decide (expected_file_size h = N.of_nat (length (enc_header pad h ++ inp)))); [done|]. by destruct Hs. }
  clear Hs. apply bytes_app in Hb as [_ Hb]. apply finish_read_inv in E as (-> & Ln & Ei & Rf & Rb); [|done].
  apply bytes_app in Hb as [_ Hb]. apply read_side_inv in Rf as (_ & F1 & F2 & F3 & F4 & F5 & F6 & F7); [|done].
  apply bytes_app in Hb as [_ Hb]. apply read_side_inv in Rb as (_ & B1 & B2 & B3 & B4 & B5 & B6 & B7); [|done].
  assert (N.of_nat (length (o_rank o)) = h_nodes h) as En by lia.
  assert (N.of_nat (length (f_head (o_fwd o))) = h_fwd h) as Ef by lia. assert (N.of_nat (length (f_head (o_bwd o))) = h_bwd h) as Eb by lia.
  rewrite u32_small in F1, B1 by lia.
  assert (length (enc_header pad h) = 24) as L24. { unfold enc_header. rewrite !app_length, !le_bytes_length. lia. }
  assert (forall s a, length (f_first_out s) = N.to_nat (h_nodes h + 1) -> length (f_head s) = N.to_nat a -> length (f_weight s) = N.to_nat a ->
    length (bv_data (f_orig s)) = (N.to_nat a + 511) / 512 * 8 -> length (f_first s) = N.to_nat a -> length (f_second s) = N.to_nat a ->
    N.of_nat (length (side_bytes s)) = (4 * (h_nodes h + 1) + 4 * 4 * a + 64 * ((a + 511) / 512))%N) as Hlen.
  { intros s a G1 G2 G3 G4 G5 G6. unfold side_bytes. rewrite !app_length, !id_bytes_length, word_bytes_length, (concat_length 8) by (intros; apply le_bytes_length).
    rewrite G1, G2, G3, G4, G5, G6. pose proof (nblocks (N.to_nat a)) as Hk. rewrite N2Nat.id in Hk. rewrite <- Hk. remember ((N.to_nat a + 511) / 512) as k. lia. }
  pose proof (Hlen _ _ F1 F2 F3 F5 F6 F7) as Lf. pose proof (Hlen _ _ B1 B2 B3 B5 B6 B7) as Lb.
  assert (N.of_nat (length (enc_header pad h ++ id_bytes (o_rank o) ++ side_bytes (o_fwd o) ++ side_bytes (o_bwd o) ++ rest)) = size_of_file (h_nodes h) (h_fwd h) (h_bwd h) + N.of_nat (length rest))%N as Ltot.
  { rewrite !app_length, L24, id_bytes_length. rewrite !Nat2N.inj_add, Lf, Lb. unfold size_of_file. lia. }
  assert (words_in h < 2 ^ 32)%N as Hw.
  { destruct (decide (words_in h < 2 ^ 32)%N); [done|]. exfalso. pose proof (expected_wraps h H32 ltac:(lia)) as H. lia. }
  rewrite (expected_exact h H32 Hw) in Hsz. assert (length rest = 0) as Hr by lia. apply nil_length_inv in Hr as ->. rewrite En, Ef, Eb. split; [lia|]. split; [done|].
  exists pad. split; [done|]. unfold save_ch. rewrite write_ch_bytes. rewrite app_nil_r. f_equal. f_equal. unfold header_of. rewrite F1, Ef, Eb, N2Nat.id.
  destruct H32 as (_ & H2 & H3). rewrite (u32_small (h_fwd h)), (u32_small (h_bwd h)) by done.
  replace (h_nodes h + 1 + (2 ^ 64 - 1))%N with (h_nodes h + 1 * 2 ^ 64)%N by lia. rewrite N.mod_add by done. rewrite N.mod_small by lia. rewrite u32_small by lia.
  rewrite <- Hm. by destruct h.
Qed.
Print Assumptions C33_loaded.

(** Among the files with a given header that describes less than 2^32 numbers, exactly those of the right size are accepted, if the ranks are a permutation. *)
Lemma read_ids_enough size inp : 4 * N.to_nat size <= length inp ->
  read_ids size inp = Some (Ret (dec_id <$> groups (N.to_nat size) 4 (take (4 * N.to_nat size) inp), drop (4 * N.to_nat size) inp)).
Proof. intros H. unfold read_ids, read_vector, read_bytes. by rewrite decide_False by lia. Qed.
Lemma read_words_enough size inp : 4 * N.to_nat size <= length inp -> exists v, read_words size inp = Some (Ret (v, drop (4 * N.to_nat size) inp)).
Proof. intros H. unfold read_words, read_vector, read_bytes. rewrite decide_False by lia. eauto. Qed.
Lemma read_flags_enough size inp : (N.to_nat size + 511) / 512 * 64 <= length inp -> exists v, read_flags size inp = Some (Ret (v, drop ((N.to_nat size + 511) / 512 * 64) inp)).
Proof. intros H. unfold read_flags, read_bits, read_bytes. rewrite decide_False by (by apply Nat.le_ngt). eauto. Qed.
Lemma read_side_enough n a inp k : (n + 1 < 2 ^ 32)%N -> (4 * (n + 1) + 4 * 4 * a + 64 * ((a + 511) / 512) + k <= N.of_nat (length inp))%N ->
  exists s rest, read_side n a inp = Some (Ret (s, rest)) /\ (k <= N.of_nat (length rest))%N.
Proof.
  intros Hn Hl. assert ((a + 511) / 512 = N.of_nat ((N.to_nat a + 511) / 512))%N as Eb by (rewrite nblocks, N2Nat.id; done). rewrite Eb in Hl.
  unfold read_side. rewrite u32_small by done. rewrite read_ids_enough by lia. cbn [andthen].
  rewrite read_ids_enough by (rewrite drop_length; lia). cbn [andthen].
  destruct (read_words_enough a (drop (4 * N.to_nat a) (drop (4 * N.to_nat (n + 1)) inp))) as (v3 & ->); [rewrite !drop_length; lia|]. cbn [andthen].
  remember ((N.to_nat a + 511) / 512) as q eqn:Eq.
  destruct (read_flags_enough a (drop (4 * N.to_nat a) (drop (4 * N.to_nat a) (drop (4 * N.to_nat (n + 1)) inp)))) as (v4 & E4); [rewrite <- Eq, !drop_length; lia|].
  rewrite E4, <- Eq. cbn [andthen].
  rewrite read_ids_enough by (rewrite !drop_length; lia). cbn [andthen]. rewrite read_ids_enough by (rewrite !drop_length; lia). cbn [andthen].
  eexists _, _. split; [done|]. rewrite !drop_length. lia.
Qed.
Theorem C33_exact : forall pad h body, length pad = 4 -> h_magic h = ch_magic_number -> header_32 h -> (h_nodes h + 1 < 2 ^ 32)%N -> (words_in h < 2 ^ 32)%N ->
  perm (dec_id <$> groups (N.to_nat (h_nodes h)) 4 (take (4 * N.to_nat (h_nodes h)) body)) ->
  (exists o, load_ch (enc_header pad h ++ body) = Some (Ret o)) <-> N.of_nat (length (enc_header pad h ++ body)) = size_of_file (h_nodes h) (h_fwd h) (h_bwd h).
Proof.
  intros pad h body Hp Hm H32 Hn Hw Hperm.
  assert (read_header (enc_header pad h ++ body) = Some (Ret (h, body))) as Eh.
  { pose proof H32 as (H1 & H2 & H3). destruct (header_round pad h Hp) as [El Ed]; [by rewrite Hm|done..|].
    unfold read_header, read_value, read_bytes. rewrite decide_False by (rewrite app_length; lia). rewrite take_app_alt, drop_app_alt by done. rewrite Ed.
    cbn [andthen]. rewrite decide_False; [done|]. intros H. by apply H. }
  assert (length (enc_header pad h) = 24) as L24. { unfold enc_header. rewrite !app_length, !le_bytes_length. lia. }
  unfold load_ch, read_ch_sized. rewrite Eh. cbn [andthen]. rewrite (expected_exact h H32 Hw). case_decide as Hs.
  - split; [by intros [o ?]|]. intros E. by rewrite E in Hs.
  - split; [by intros _|intros _]. rewrite app_length, L24 in Hs. unfold size_of_file in Hs.
    remember (4 * (h_nodes h + 1) + 4 * 4 * h_fwd h + 64 * ((h_fwd h + 511) / 512))%N as sf eqn:Ef.
    remember (4 * (h_nodes h + 1) + 4 * 4 * h_bwd h + 64 * ((h_bwd h + 511) / 512))%N as sb eqn:Eb. cbv zeta in Hs.
    unfold finish_read. rewrite read_ids_enough by lia. cbn [andthen]. destruct (invert_permutation_correct _ Hperm) as (q & -> & _).
    destruct (read_side_enough (h_nodes h) (h_fwd h) (drop (4 * N.to_nat (h_nodes h)) body) sb Hn) as (f & i2 & -> & L2); [rewrite drop_length; lia|]. cbn [andthen].
    destruct (read_side_enough (h_nodes h) (h_bwd h) i2 0 Hn) as (b & i3 & -> & _); [lia|]. cbn [andthen]. eauto.
Qed.
Print Assumptions C33_exact.
(** If they are not, the behaviour is undefined although the size is right. *)
Theorem C33_corrupt_refuted : exists file, bytes file /\ length file = 44 /\ size_of_file 1 0 0 = 44%N /\ load_ch file = None.
Proof.
  exists (enc_header [0;0;0;0]%N (mkHeader ch_magic_number 1 0 0) ++ le_bytes 4 7 ++ replicate 16 0%N).
  split; [apply (bool_decide_unpack _); vm_compute; exact I|]. split; [reflexivity|]. split; [reflexivity|]. vm_compute. reflexivity.
Qed.
Print Assumptions C33_corrupt_refuted.

(** The hierarchy of C29_ex. *)
Definition ex_side (d : chside) : fside := mkFside (cs_first_out d) (cs_head d) (cs_weight d)
  (default bv_empty (make_bit_vector (replicate (u64_count (length (cs_orig d))) 0%N) (length (cs_orig d)) (fun i => nth i (cs_orig d) false))) (cs_first d) (cs_second d).
Definition ex_obj : chobj := mkObj (ch_rank ex_ch) (ch_order ex_ch) (ex_side (ch_fwd ex_ch)) (ex_side (ch_bwd ex_ch)).
Example C33_ex : ch_fits ex_ch /\ ch_object ex_obj ex_ch /\ numbers_in ex_ch = 80%N /\ length (save_ch [1;2;3;4]%N ex_obj) = 472 /\
  take 28 (save_ch [1;2;3;4]%N ex_obj) = [114; 101; 105; 72; 116; 110; 111; 67; 6; 0; 0; 0; 6; 0; 0; 0; 9; 0; 0; 0; 1; 2; 3; 4; 1; 0; 0; 0]%N /\
  load_ch (save_ch [1;2;3;4]%N ex_obj) = Some (Ret ex_obj) /\ load_ch (save_ch [1;2;3;4]%N ex_obj ++ [0%N]) = Some Throw /\ load_ch (take 471 (save_ch [1;2;3;4]%N ex_obj)) = Some Throw.
Proof.
  assert (forall l, make_bit_vector (replicate (u64_count (length l)) 0%N) (length l) (fun i => nth i l false) <> None /\
    bv_rep (default bv_empty (make_bit_vector (replicate (u64_count (length l)) 0%N) (length l) (fun i => nth i l false))) l) as Hrep.
  { intros l. destruct (make_spec (replicate (u64_count (length l)) 0%N) (length l) (fun i => nth i l false)) as (v & E & Hv); [apply replicate_length|by apply words_replicate|].
    rewrite E. split; [done|]. cbn. assert ((fun i => nth i l false) <$> seq 0 (length l) = l) as El; [|by rewrite El in Hv].
    apply list_eq. intros i. rewrite list_lookup_fmap. destruct (decide (i < length l)) as [Hi|Hi].
    - rewrite lookup_seq_lt by done. cbn. destruct (lookup_lt_is_Some_2 l i Hi) as [x Hx]. rewrite Hx. by rewrite (nth_lookup_Some _ _ _ _ Hx).
    - rewrite lookup_seq_ge by lia. cbn. by rewrite lookup_ge_None_2 by lia. }
  split; [eapply C33_constructed; [apply ex_ch_of|done..]|]. split.
  { split; [done|]. split; [done|]. split; (split; [done|]; split; [done|]; split; [done|]; split; [apply Hrep|]; done). }
  split_and!; vm_compute; reflexivity.
Qed.
