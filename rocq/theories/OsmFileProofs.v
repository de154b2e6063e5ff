(** The blocks of a file are found, whatever lies between them. *)
From Coq Require Import String.
From Verif Require Import Base ProtobufModel ProtobufSpec ProtobufProofs TagMapModel TagMapSpec TagMapProofs OsmBlockModel OsmBlockSpec OsmBlockProofs OsmProfileModel OsmFileModel OsmFileSpec.
Ltac Zify.zify_post_hook ::= idtac.

(** ** Byte order *)
Lemma ntohl_system_be32 n : (n < 2 ^ 32)%N -> ntohl_system (load32 (be32 n)) = n.
Proof.
  intros Hn. unfold ntohl_system, be32. cbn [load32].
  change (2 ^ 32)%N with 4294967296%N in Hn. change (2 ^ 24)%N with 16777216%N. change (2 ^ 16)%N with 65536%N. change (2 ^ 8)%N with 256%N.
  rewrite N.mul_0_r, N.add_0_r.
  pose proof (N.div_mod n 256 ltac:(done)) as E0.
  pose proof (N.div_mod (n / 256) 256 ltac:(done)) as E1.
  pose proof (N.div_mod (n / 65536) 256 ltac:(done)) as E2.
  assert (n / 65536 = n / 256 / 256)%N as E3 by (rewrite N.div_div by done; reflexivity).
  assert (n / 16777216 = n / 65536 / 256)%N as E4 by (rewrite N.div_div by done; reflexivity).
  assert (n / 16777216 < 256)%N as H4 by (apply N.div_lt_upper_bound; lia).
  rewrite (N.mod_small (n / 16777216) 256) by done.
  pose proof (N.mod_lt n 256 ltac:(done)) as H0. pose proof (N.mod_lt (n / 256) 256 ltac:(done)) as H1. pose proof (N.mod_lt (n / 65536) 256 ltac:(done)) as H2.
  set (d0 := (n mod 256)%N) in *. set (d1 := ((n / 256) mod 256)%N) in *. set (d2 := ((n / 65536) mod 256)%N) in *. set (d3 := (n / 16777216)%N) in *.
  replace ((d3 + 256 * (d2 + 256 * (d1 + 256 * d0))) mod 256)%N with d3.
  2: { replace (d3 + 256 * (d2 + 256 * (d1 + 256 * d0)))%N with (d3 + (d2 + 256 * (d1 + 256 * d0)) * 256)%N by lia. rewrite N.mod_add by done. by rewrite N.mod_small. }
  replace ((d3 + 256 * (d2 + 256 * (d1 + 256 * d0))) / 256)%N with (d2 + 256 * (d1 + 256 * d0))%N.
  2: { replace (d3 + 256 * (d2 + 256 * (d1 + 256 * d0)))%N with (d3 + (d2 + 256 * (d1 + 256 * d0)) * 256)%N by lia. rewrite N.div_add by done. rewrite N.div_small by done. lia. }
  replace ((d3 + 256 * (d2 + 256 * (d1 + 256 * d0))) / 65536)%N with (d1 + 256 * d0)%N.
  2: { replace (d3 + 256 * (d2 + 256 * (d1 + 256 * d0)))%N with ((d3 + 256 * d2) + (d1 + 256 * d0) * 65536)%N by lia. rewrite N.div_add by done. rewrite N.div_small by lia. lia. }
  replace ((d3 + 256 * (d2 + 256 * (d1 + 256 * d0))) / 16777216)%N with d0.
  2: { replace (d3 + 256 * (d2 + 256 * (d1 + 256 * d0)))%N with ((d3 + 256 * d2 + 65536 * d1) + d0 * 16777216)%N by lia. rewrite N.div_add by done. rewrite N.div_small by lia. lia. }
  replace ((d2 + 256 * (d1 + 256 * d0)) mod 256)%N with d2.
  2: { replace (d2 + 256 * (d1 + 256 * d0))%N with (d2 + (d1 + 256 * d0) * 256)%N by lia. rewrite N.mod_add by done. by rewrite N.mod_small. }
  replace ((d1 + 256 * d0) mod 256)%N with d1.
  2: { replace (d1 + 256 * d0)%N with (d1 + d0 * 256)%N by lia. rewrite N.mod_add by done. by rewrite N.mod_small. }
  lia.
Qed.
Fixpoint all_from (f : N -> bool) (n : N) (k : nat) : bool := match k with O => true | S k => f n && all_from f (N.succ n) k end.
Lemma all_from_spec f k n m : all_from f n k = true -> (n <= m < n + N.of_nat k)%N -> f m = true.
Proof.
  revert n. induction k as [|k IH]; intros n H Hm; [lia|]. cbn [all_from] in H. apply andb_prop in H as [H1 H2].
  destruct (decide (m = n)) as [-> |Hne]; [done|]. apply (IH (N.succ n)); [done|lia].
Qed.
Lemma ntohl_own_be32 n : (n < 2 ^ 16)%N -> ntohl_own (load32 (be32 n)) = n.
Proof.
  intros Hn. apply N.eqb_eq. apply (all_from_spec (fun n => (ntohl_own (load32 (be32 n)) =? n)%N) (N.to_nat (2 ^ 16)) 0); [vm_compute; reflexivity|]. rewrite N2Nat.id. lia.
Qed.

Lemma load32_store32 n : (n < 2 ^ 32)%N -> load32 (store32 n) = n.
Proof.
  intros Hn. unfold store32. cbn [load32].
  change (2 ^ 32)%N with 4294967296%N in Hn. change (2 ^ 24)%N with 16777216%N. change (2 ^ 16)%N with 65536%N. change (2 ^ 8)%N with 256%N.
  pose proof (N.div_mod n 256 ltac:(done)) as E0.
  pose proof (N.div_mod (n / 256) 256 ltac:(done)) as E1.
  pose proof (N.div_mod (n / 65536) 256 ltac:(done)) as E2.
  assert (n / 65536 = n / 256 / 256)%N as E3 by (rewrite N.div_div by done; reflexivity).
  assert (n / 16777216 = n / 65536 / 256)%N as E4 by (rewrite N.div_div by done; reflexivity).
  assert (n / 16777216 < 256)%N as H4 by (apply N.div_lt_upper_bound; lia).
  rewrite (N.mod_small (n / 16777216) 256) by done. lia.
Qed.

(** ** Reading *)
Lemma read_app a rest : (N.of_nat (length a) <= minimum_read_size)%N -> read (N.of_nat (length a)) (a ++ rest) = Ret (Some a, rest).
Proof.
  intros H. unfold read. rewrite decide_False by lia. rewrite decide_False by (rewrite app_length; lia). rewrite Nat2N.id. by rewrite take_app, drop_app.
Qed.
Lemma read_or_throw_app a rest : (N.of_nat (length a) <= minimum_read_size)%N -> read_or_throw (N.of_nat (length a)) (a ++ rest) = Ret (a, rest).
Proof. intros H. unfold read_or_throw. by rewrite read_app. Qed.
Lemma read_shorter n rest o rest' : read n rest = Ret (o, rest') -> length rest' <= length rest /\ (forall p, o = Some p -> length rest = N.to_nat n + length rest').
Proof.
  unfold read. case_decide; [done|]. case_decide; intros [= <- <-]; [split; [done|done]|]. rewrite drop_length. split; [lia|]. intros. lia.
Qed.
Lemma read_or_throw_shorter n rest p rest' : read_or_throw n rest = Ret (p, rest') -> length rest = N.to_nat n + length rest'.
Proof.
  unfold read_or_throw. destruct (read n rest) as [[[q|] r]|] eqn:E; try done. intros [= <- <-]. by eapply read_shorter.
Qed.

Lemma text_str s : text s = str s.
Proof. done. Qed.

(** ** std::equal *)
Lemma equal_chars_true s lit : 0%N ∉ s -> equal_chars s (lit ++ [0%N]) = Some (bool_decide (s `prefix_of` lit)).
Proof.
  revert lit. induction s as [|a s IH]; intros lit Hs.
  - cbn. rewrite bool_decide_true; [done|]. apply prefix_nil.
  - apply not_elem_of_cons in Hs as [Ha Hs]. destruct lit as [|b lit]; cbn [equal_chars app].
    + rewrite decide_False by done. by rewrite bool_decide_false by (intros [k Hk]; done).
    + case_decide as E.
      * subst. rewrite IH by done. f_equal. apply bool_decide_ext. split; [apply prefix_cons|apply prefix_cons_inv_2].
      * rewrite bool_decide_false; [done|]. intros Hp. by apply prefix_cons_inv_1 in Hp.
Qed.
Lemma std_equal_spec s lit : 0%N ∉ s -> std_equal s lit = Some (bool_decide (s `prefix_of` text lit)).
Proof. intros H. unfold std_equal. by rewrite equal_chars_true. Qed.

(** ** Header blocks *)
(** An optional feature counts if it is a prefix of the name of the order. *)
Definition counts_as_sorted (o : list (list N)) : bool := existsb (fun s => bool_decide (s `prefix_of` text "Sort.Type_then_ID")) o.
Lemma payloads_cons_string k j s es : payloads k (EString j s :: es) = (if decide (j = k) then [s] else []) ++ payloads k es.
Proof. unfold payloads. cbn [omap list_omap]. by case_decide. Qed.
Lemma header_strings_ok es b : Forall (fun f => 0%N ∉ f /\ f `prefix_of` text "DenseNodes") (payloads 4 es) -> Forall (fun f => 0%N ∉ f) (payloads 5 es) ->
  header_strings es b = ret (b || counts_as_sorted (payloads 5 es)).
Proof.
  revert b. induction es as [|e es IH]; intros b H4 H5.
  - cbn. by rewrite orb_false_r.
  - destruct e as [k v|k v|k v|k s]; try (by apply IH). cbn [header_strings]. rewrite payloads_cons_string in H4, H5. rewrite payloads_cons_string. unfold header_string.
    destruct (decide (k = 4%N)) as [Hk4|Hk4].
    + rewrite (decide_False (P := k = 5%N)) in * by (subst; done). cbn [app] in *. apply Forall_cons in H4 as [[Hz Hp] H4].
      rewrite std_equal_spec by done. rewrite bool_decide_true by done. cbn [mbind option_bind]. rewrite mb_ret. by apply IH.
    + destruct (decide (k = 5%N)) as [Hk5|Hk5].
      * cbn [app] in *. apply Forall_cons in H5 as [Hz H5]. rewrite std_equal_spec by done. cbn [mbind option_bind]. rewrite mb_ret. rewrite IH by done. f_equal.
        unfold counts_as_sorted. cbn [existsb]. case_bool_decide; by destruct b.
      * rewrite mb_ret. by apply IH.
Qed.
Lemma read_header_block_ok bs es : message varint_of bs es -> Forall (fun f => 0%N ∉ f /\ f `prefix_of` text "DenseNodes") (payloads 4 es) -> Forall (fun f => 0%N ∉ f) (payloads 5 es) ->
  read_header_block bs = ret (counts_as_sorted (payloads 5 es)).
Proof.
  intros Hm H4 H5. unfold read_header_block. unfold walk. rewrite (walk_complete (length bs) bs es); [|done|by apply (message_mono varint_of), Hm; intros; apply varint_of_read].
  cbn [mbind option_bind]. rewrite header_strings_ok by done. rewrite mb_ret. done.
Qed.

(** The status after a header block. *)
Definition header_status (sorted : bool) : N := if sorted then 11 else 9.
(** What a call writes for a block. *)
Definition frame (block : list N) : list N := store32 (N.of_nat (length block)) ++ block.

(** ** Fuel *)
Lemma find_fuel ntohl fuel fuel' st rest : length rest < fuel -> length rest < fuel' -> find_blob ntohl fuel st rest = find_blob ntohl fuel' st rest.
Proof.
  revert fuel' st rest. induction fuel as [|fuel IH]; intros [|fuel'] st rest H H'; try lia. cbn [find_blob].
  destruct (read 4 rest) as [[[p|] r1]|] eqn:E1; try done.
  apply read_shorter in E1 as [_ E1]. specialize (E1 p eq_refl). change (N.to_nat 4) with 4 in E1.
  destruct (read_or_throw (ntohl (load32 p)) r1) as [[hd r2]|] eqn:E2; try done. apply read_or_throw_shorter in E2.
  destruct (read_blob_header hd) as [[[ty sz]|]|]; try done. cbn [mbind option_bind].
  destruct (decide (ty = str "OSMData")); [done|]. destruct (decide (ty = str "OSMHeader")).
  - destruct (_ && _); [done|]. destruct (_ && _); [done|]. destruct (read_or_throw sz r2) as [[c r3]|] eqn:E3; [|done]. apply read_or_throw_shorter in E3.
    destruct (read_header_block c) as [[b|]|]; try done. cbn [mbind option_bind]. by rewrite (IH fuel') by lia.
  - destruct (read sz r2) as [[o r3]|] eqn:E3; [|done]. apply read_shorter in E3 as [E3 _]. by rewrite (IH fuel') by lia.
Qed.
Lemma framed_len ty content bs : framed ty content bs -> 4 <= length bs.
Proof. intros (h & es & -> & _). rewrite app_length. cbn. lia. Qed.

Lemma dense_ok r : Forall (fun f => f = text "DenseNodes") r -> Forall (fun f => 0%N ∉ f /\ f `prefix_of` text "DenseNodes") r.
Proof.
  intros H. eapply Forall_impl; [exact H|]. intros f ->. split; [|done]. apply (bool_decide_unpack _). vm_compute. done.
Qed.

(** The status after a header or a block of data; whether it says that the file is ordered. *)
Definition good_status (sorted : bool) (s : N) : Prop := has_bit s is_header_info_available_bit = true /\ has_bit s is_ordered_bit = sorted.
Lemma good_data sorted s : good_status sorted s -> good_status sorted (N.lor s 5).
Proof.
  unfold good_status, has_bit, is_header_info_available_bit, is_ordered_bit. intros [H1 H2].
  assert (forall x k, negb (N.land x (2 ^ k) =? 0)%N = N.testbit x k) as T.
  { intros x k. destruct (N.testbit x k) eqn:E.
    - apply negb_true_iff, N.eqb_neq. intros H0. apply (f_equal (fun y => N.testbit y k)) in H0. rewrite N.land_spec, E, N.pow2_bits_true, N.bits_0 in H0. done.
    - apply negb_false_iff, N.eqb_eq. apply N.bits_inj. intros j. rewrite N.land_spec, N.bits_0. destruct (decide (j = k)) as [->|Hjk]; [by rewrite E|]. rewrite N.pow2_bits_false by done. apply andb_false_r. }
  pose proof (T s 0%N) as T0. pose proof (T s 1%N) as T1. pose proof (T (N.lor s 5) 0%N) as T2. pose proof (T (N.lor s 5) 1%N) as T3.
  change (2 ^ 0)%N with 1%N in *. change (2 ^ 1)%N with 2%N in *. rewrite T0 in H1. rewrite T1 in H2. rewrite T2, T3, !N.lor_spec, H1, H2. split; [done|]. by rewrite orb_false_r.
Qed.
Lemma good_zero : good_status false (N.lor 0 5).
Proof. by vm_compute. Qed.
Lemma good_header b : good_status b (header_status b).
Proof. by destruct b. Qed.

(** The header says it is sorted, as the code understands it. *)
Definition counted (fbs : list file_block) : bool := existsb (fun fb => match fb with BHeader _ o => counts_as_sorted o | _ => false end) fbs.
Lemma counted_no_header fbs : Forall (fun fb => ~ is_header fb) fbs -> counted fbs = false.
Proof. induction 1 as [|fb fbs H1 H2 IH]; [done|]. unfold counted in *. cbn. rewrite IH. by destruct fb. Qed.
Lemma limit_ok n : (n <= content_limit)%N -> (n <= minimum_read_size)%N.
Proof. unfold content_limit, minimum_read_size. change (2 ^ 25)%N with 33554432%N. lia. Qed.
Section file.
Context (ntohl : N -> N) (inflate : list N -> N -> option (list N)) (unzips : list N -> list N -> Prop).
Hypothesis Hntohl : forall n, (n < 2 ^ 16)%N -> ntohl (load32 (be32 n)) = n.
Hypothesis Hinflate : forall z bs n, unzips z bs -> (N.of_nat (length bs) <= n)%N -> inflate z n = Some bs.
Let find_blob := find_blob ntohl.
Let decompress := decompress ntohl inflate.

(** ** One block *)
Lemma type_take ty : 0%N ∉ ty -> ty <> text "OSMHeader" -> ty <> text "OSMData" ->
  c_str (take 15 ty) <> str "OSMHeader" /\ c_str (take 15 ty) <> str "OSMData".
Proof.
  intros Hz H1 H2. assert (0%N ∉ take 15 ty) as Hz' by (intros H; apply Hz; by eapply elem_of_take in H as (i & H%elem_of_list_lookup_2 & _)).
  rewrite c_str_id by done.
  assert (forall lit, length lit < 15 -> take 15 ty = lit -> ty = lit) as H.
  { intros lit Hl E. assert (length (take 15 ty) < 15) as Hl' by (rewrite E; lia). rewrite take_length in Hl'. rewrite <- E. rewrite take_ge by lia. done. }
  split; intros E; [apply H1|apply H2]; (apply H; [vm_compute; lia|done]).
Qed.
Lemma framed_read ty content bs rest : framed ty content bs -> exists header, bs = be32 (N.of_nat (length header)) ++ header ++ content /\
  read 4 (bs ++ rest) = Ret (Some (be32 (N.of_nat (length header))), header ++ content ++ rest) /\
  read_or_throw (ntohl (load32 (be32 (N.of_nat (length header))))) (header ++ content ++ rest) = Ret (header, content ++ rest) /\
  read_blob_header header = ret (c_str (take 15 ty), N.of_nat (length content)) /\
  (N.of_nat (length content) <= content_limit)%N.
Proof using Hntohl Hinflate.
  intros (header & es & -> & Hh & Hc & Hm & H1 & H3). exists header. split; [done|]. unfold header_limit, content_limit in *. split.
  { rewrite <- !(assoc_L (++)). by apply (read_app (be32 (N.of_nat (length header)))). }
  split.
  { rewrite Hntohl by done. apply read_or_throw_app. unfold minimum_read_size. change (2 ^ 16)%N with 65536%N in Hh. lia. }
  split; [|done]. unfold read_blob_header. rewrite (events_ok _ _ Hm), mb_ret. rewrite (last_string_1 _ _ _ H1), (last_varint_1 _ _ _ H3). cbn [default from_option].
  change (2 ^ 25)%N with 33554432%N in Hc. rewrite N.mod_small by (change (2 ^ 32)%N with 4294967296%N; lia). rewrite decide_False by (change (2 ^ 32 - 1)%N with 4294967295%N; lia). done.
Qed.
Lemma find_other fuel st ty content bs rest : framed ty content bs -> 0%N ∉ ty -> ty <> text "OSMHeader" -> ty <> text "OSMData" ->
  find_blob (S fuel) st (bs ++ rest) = find_blob fuel st rest.
Proof using Hntohl Hinflate.
  intros Hf Hz Hh Hd. destruct (framed_read _ _ _ rest Hf) as (header & -> & E1 & E2 & E3 & Hc). destruct (type_take ty Hz Hh Hd) as [T1 T2].
  unfold find_blob. cbn [OsmFileModel.find_blob]. rewrite E1, E2, E3. cbn [ret mbind option_bind]. rewrite decide_False by done. rewrite decide_False by done.
  by rewrite read_app by (by apply limit_ok).
Qed.
Lemma find_data fuel st content bs rest : framed (text "OSMData") content bs ->
  find_blob (S fuel) st (bs ++ rest) = Some ([N.lor st 5], FBlob content rest).
Proof using Hntohl Hinflate.
  intros Hf. destruct (framed_read _ _ _ rest Hf) as (header & -> & E1 & E2 & E3 & Hc).
  unfold find_blob. cbn [OsmFileModel.find_blob]. rewrite E1, E2, E3. cbn [ret mbind option_bind]. rewrite decide_True by (vm_compute; reflexivity).
  rewrite read_or_throw_app by (by apply limit_ok). done.
Qed.
Lemma find_header fuel content bs rest es : framed (text "OSMHeader") content bs -> message varint_of content es ->
  Forall (fun f => 0%N ∉ f /\ f `prefix_of` text "DenseNodes") (payloads 4 es) -> Forall (fun f => 0%N ∉ f) (payloads 5 es) ->
  find_blob (S fuel) 0 (bs ++ rest) =
    let s := header_status (counts_as_sorted (payloads 5 es)) in '(ss, f) ← find_blob fuel s rest; Some (s :: ss, f).
Proof using Hntohl Hinflate.
  intros Hf Hm H4 H5. destruct (framed_read _ _ _ rest Hf) as (header & -> & E1 & E2 & E3 & Hc).
  unfold find_blob. cbn [OsmFileModel.find_blob]. rewrite E1, E2, E3. cbn [ret mbind option_bind]. rewrite decide_False by (vm_compute; discriminate). rewrite decide_True by (vm_compute; reflexivity).
  cbn [has_bit N.land N.eqb negb andb]. rewrite read_or_throw_app by (by apply limit_ok). rewrite (read_header_block_ok _ _ Hm H4 H5). cbn [ret mbind option_bind].
  unfold header_status. by destruct (counts_as_sorted (payloads 5 es)).
Qed.
Lemma unpack_ok content block : blob unzips content true block -> (N.of_nat (length block) <= content_limit)%N -> unpack_blob inflate content = ret (frame block).
Proof using Hntohl Hinflate.
  intros Hb Hl. assert (minimum_read_size - 4 < N.of_nat (length block) -> False)%N as H4 by (unfold content_limit in Hl; unfold minimum_read_size; change (2 ^ 25)%N with 33554432%N in Hl; lia).
  assert (N.of_nat (length block) <> 2 ^ 64 - 1)%N as H64 by (unfold content_limit in Hl; change (2 ^ 25)%N with 33554432%N in Hl; change (2 ^ 64 - 1)%N with 18446744073709551615%N; lia).
  unfold unpack_blob. remember true as sized eqn:Es. destruct Hb as [bs es block sized Hm H1 H3 H2|bs es z block Hm H1 H3 Hz H2].
  - subst sized. rewrite (events_ok _ _ Hm), mb_ret, (last_string_1 _ _ _ H1), (last_string_0 _ _ H3), (last_varint_1 _ _ _ H2).
    rewrite decide_False by done. rewrite decide_False by tauto. by rewrite decide_False by tauto.
  - rewrite (events_ok _ _ Hm), mb_ret, (last_string_0 _ _ H1), (last_string_1 _ _ _ H3), (last_varint_1 _ _ _ H2).
    rewrite decide_False by done. rewrite decide_False by tauto. rewrite (Hinflate _ _ _ Hz) by lia. by rewrite decide_False by tauto.
Qed.

Lemma decompress_other fuel st ty content bs rest : framed ty content bs -> 0%N ∉ ty -> ty <> text "OSMHeader" -> ty <> text "OSMData" ->
  decompress fuel st (bs ++ rest) = decompress fuel st rest.
Proof using Hntohl Hinflate.
  intros Hf Hz Hh Hd. unfold decompress. destruct fuel as [|fuel]; [done|]. cbn [OsmFileModel.decompress].
  pose proof (find_other (length (bs ++ rest)) st ty content bs rest Hf Hz Hh Hd) as E. unfold find_blob in E. rewrite E. pose proof (framed_len _ _ _ Hf).
  pose proof (find_fuel ntohl (length (bs ++ rest)) (S (length rest)) st rest) as E2. rewrite E2; [done|rewrite app_length; lia|lia].
Qed.
Lemma decompress_header fuel content bs rest es : framed (text "OSMHeader") content bs -> message varint_of content es ->
  Forall (fun f => 0%N ∉ f /\ f `prefix_of` text "DenseNodes") (payloads 4 es) -> Forall (fun f => 0%N ∉ f) (payloads 5 es) ->
  decompress (S fuel) 0 (bs ++ rest) =
    let s := header_status (counts_as_sorted (payloads 5 es)) in '(ss, b, ok) ← decompress (S fuel) s rest; Some (s :: ss, b, ok).
Proof using Hntohl Hinflate.
  intros Hf Hm H4 H5. unfold decompress. cbn [OsmFileModel.decompress].
  pose proof (find_header (length (bs ++ rest)) content bs rest es Hf Hm H4 H5) as E. unfold find_blob in E. rewrite E. clear E. cbv zeta. set (s := header_status _). pose proof (framed_len _ _ _ Hf).
  pose proof (find_fuel ntohl (length (bs ++ rest)) (S (length rest)) s rest) as E2. rewrite E2; [|rewrite app_length; lia|lia].
  destruct (OsmFileModel.find_blob ntohl (S (length rest)) s rest) as [[ss f]|]; [|done]. cbn [mbind option_bind]. destruct f as [| |blob r]; try done.
  destruct (unpack_blob inflate blob) as [[b|]|]; try done. cbn [mbind option_bind]. 
  replace (default 0%N (last (s :: ss))) with (default s (last ss)) by (rewrite last_cons; by destruct (last ss)).
  by destruct (OsmFileModel.decompress ntohl inflate fuel (default s (last ss)) r) as [[[ss' bs'] ok]|].
Qed.
Lemma decompress_data fuel st content bs block rest : framed (text "OSMData") content bs -> blob unzips content true block -> (N.of_nat (length block) <= content_limit)%N ->
  decompress (S fuel) st (bs ++ rest) = '(ss, b, ok) ← decompress fuel (N.lor st 5) rest; Some (N.lor st 5 :: ss, frame block :: b, ok).
Proof using Hntohl Hinflate.
  intros Hf Hb Hl. unfold decompress. cbn [OsmFileModel.decompress]. pose proof (find_data (length (bs ++ rest)) st content bs rest Hf) as E. unfold find_blob in E. rewrite E.
  cbn [mbind option_bind]. by rewrite (unpack_ok _ _ Hb Hl).
Qed.
Lemma decompress_end fuel st rest : length rest < 4 -> decompress (S fuel) st rest = Some ([], [], true).
Proof using Hntohl Hinflate.
  intros H. unfold decompress. cbn [OsmFileModel.decompress OsmFileModel.find_blob]. unfold read at 1. rewrite decide_False by done. rewrite decide_True by lia. done.
Qed.

(** ** All blocks *)
Lemma decompress_datas ls fbs sorted st fuel rest : Forall2 (file_block_bytes unzips) ls fbs -> Forall supported fbs -> Forall (fun fb => ~ is_header fb) fbs ->
  (good_status sorted st \/ (st = 0%N /\ sorted = false)) -> length (concat ls ++ rest) < fuel ->
  exists ss st' fuel', decompress fuel st (concat ls ++ rest) = ('(ss', b, ok) ← decompress fuel' st' rest; Some (ss ++ ss', (frame <$> data_of fbs) ++ b, ok)) /\
    Forall (good_status sorted) ss /\ (Exists is_data fbs -> ss <> []) /\ length rest < fuel' /\ (good_status sorted st' \/ (st' = 0%N /\ sorted = false)).
Proof using Hntohl Hinflate.
  intros Hb. revert st fuel. induction Hb as [|bs fb ls fbs Hb Hbs IH]; intros st fuel Hs Hh Hst Hf; cbn [concat] in *.
  - exists [], st, fuel. cbn [app]. split; [by destruct (decompress fuel st rest) as [[[? ?] ?]|]|]. split; [constructor|]. split; [intros H; by inversion H|]. split; [by cbn in Hf|done].
  - apply Forall_cons in Hs as [Hs1 Hs]. apply Forall_cons in Hh as [Hh1 Hh]. rewrite <- (assoc_L (++)) in *. destruct Hb as [content bs es Hfr Hm|content bs sized block Hfr Hbl Hl|ty content bs Hfr Hz H1 H2].
    + by destruct Hh1.
    + cbn in Hs1. subst sized. destruct fuel as [|fuel]; [lia|]. rewrite (decompress_data _ _ _ _ block _ Hfr Hbl Hl).
      assert (good_status sorted (N.lor st 5)) as Hg by (destruct Hst as [H| [-> ->]]; [by apply good_data|exact good_zero]).
      pose proof (framed_len _ _ _ Hfr). destruct (IH (N.lor st 5) fuel Hs Hh) as (ss & st' & fuel' & E & Hss & _ & Hf' & Hst'); [by left|rewrite app_length in Hf; lia|].
      rewrite E. eexists (N.lor st 5 :: ss), st', fuel'. split; [by destruct (decompress fuel' st' rest) as [[[? ?] ?]|]|]. split; [by constructor|done].
    + rewrite (decompress_other _ _ ty content) by done. destruct (IH st fuel Hs Hh Hst) as (ss & st' & fuel' & E & Hss & Hne & Hf' & Hst'); [rewrite app_length in Hf; lia|].
      exists ss, st', fuel'. split; [exact E|]. split; [done|]. split; [|done]. intros He. apply Hne. inversion He; subst; done.
Qed.
(** Any bytes may follow. *)
Lemma decompress_file_app file fbs rest : file_of unzips file fbs -> Forall supported fbs -> header_first fbs ->
  exists ss st fuel, decompress_file ntohl inflate (file ++ rest) = ('(ss', b, ok) ← decompress fuel st rest; Some (ss ++ ss', (frame <$> data_of fbs) ++ b, ok)) /\
    Forall (good_status (counted fbs)) ss /\ (Exists (fun fb => ~ is_other fb) fbs -> ss <> []) /\ length rest < fuel.
Proof using Hntohl Hinflate.
  intros (ls & Hb & ->) Hs [Hh|(pre & r & o & post & -> & Hpre & Hpost)].
  - destruct (decompress_datas ls fbs false 0 (S (length (concat ls ++ rest))) rest Hb Hs Hh) as (ss & st & fuel & E & Hss & Hne & Hf & _); [by right|lia|]. exists ss, st, fuel. split; [exact E|].
    rewrite counted_no_header by done. split; [done|]. split; [|done]. intros He. apply Hne. apply Exists_exists in He as (fb & Hin & Hfb). apply Exists_exists. exists fb. split; [done|].
    rewrite Forall_forall in Hh. specialize (Hh fb Hin). destruct fb; cbn in *; tauto.
  - unfold decompress_file. generalize (Nat.lt_succ_diag_r (length (concat ls ++ rest))). generalize (S (length (concat ls ++ rest))). revert ls Hb.
    induction Hpre as [|fb pre Hfb Hpre IH]; intros ls Hb fuel Hf.
    + cbn [app] in *. inversion Hb as [|bs fb ls' fbs' Hb1 Hb2 E1 E2]; subst. clear Hb. inversion Hb1 as [content bs' es Hfr Hm E1 E2| |]; subst. clear Hb1.
      apply Forall_cons in Hs as [[Hr Ho] Hs]. cbn [concat] in *. rewrite <- (assoc_L (++)) in *. destruct fuel as [|fuel]; [lia|].
      pose proof (decompress_header fuel content bs (concat ls' ++ rest) es Hfr Hm) as E. unfold decompress in E. rewrite E; [|by apply dense_ok|done]. cbv zeta. clear E.
      set (b := counts_as_sorted (payloads 5 es)). pose proof (framed_len _ _ _ Hfr).
      destruct (decompress_datas ls' post b (header_status b) (S fuel) rest Hb2 Hs Hpost) as (ss & st & fuel' & E & Hss & _ & Hf' & _); [left; apply good_header|rewrite app_length in Hf; lia|].
      unfold decompress in E. rewrite E. exists (header_status b :: ss), st, fuel'. split; [unfold decompress; by destruct (OsmFileModel.decompress ntohl inflate fuel' st rest) as [[[? ?] ?]|]|]. split.
      * unfold counted. cbn [existsb]. fold b. pose proof (counted_no_header post Hpost) as Hc. unfold counted in Hc. rewrite Hc, orb_false_r. constructor; [apply good_header|done].
      * done.
    + destruct fb as [| |]; try done. cbn [app] in *. inversion Hb as [|bs fb ls' fbs' Hb1 Hb2 E1 E2]; subst. clear Hb. inversion Hb1 as [| |ty content bs' Hfr Hz H1 H2]; subst. clear Hb1.
      apply Forall_cons in Hs as [_ Hs]. cbn [concat] in *. rewrite <- (assoc_L (++)) in *. pose proof (framed_len _ _ _ Hfr). destruct (IH Hs ls' Hb2 fuel) as (ss & st & fuel' & E & Hss & Hne & Hf'); [rewrite app_length in Hf; lia|].
      exists ss, st, fuel'. pose proof (decompress_other fuel 0 ty content bs (concat ls' ++ rest) Hfr Hz H1 H2) as E'. unfold decompress in E'. rewrite E'. split; [exact E|]. split; [done|]. split; [|done]. intros He. apply Hne.
      inversion He; subst; [by destruct H3|done].
Qed.
Lemma decompress_file_ok file fbs : file_of unzips file fbs -> Forall supported fbs -> header_first fbs ->
  exists ss, decompress_file ntohl inflate file = Some (ss, frame <$> data_of fbs, true) /\ Forall (good_status (counted fbs)) ss /\ (Exists (fun fb => ~ is_other fb) fbs -> ss <> []).
Proof using Hntohl Hinflate.
  intros Hb Hs Hh. destruct (decompress_file_app file fbs [] Hb Hs Hh) as (ss & st & fuel & E & Hss & Hne & Hf). rewrite app_nil_r in E. exists ss. rewrite E.
  destruct fuel as [|fuel]; [cbn in Hf; lia|]. rewrite decompress_end by (cbn; lia). cbn [mbind option_bind]. by rewrite !app_nil_r.
Qed.

(** ** Cut files *)
(** Fewer than four bytes are not noticed. *)
Lemma decompress_short file fbs rest : file_of unzips file fbs -> Forall supported fbs -> header_first fbs -> length rest < 4 ->
  exists ss, decompress_file ntohl inflate (file ++ rest) = Some (ss, frame <$> data_of fbs, true).
Proof using Hntohl Hinflate.
  intros Hb Hs Hh Hr. destruct (decompress_file_app file fbs rest Hb Hs Hh) as (ss & st & fuel & E & _ & _ & Hf). exists ss. rewrite E.
  destruct fuel as [|fuel]; [lia|]. rewrite decompress_end by lia. cbn [mbind option_bind]. by rewrite !app_nil_r.
Qed.
Lemma read_or_throw_short n rest : (N.of_nat (length rest) < n)%N -> read_or_throw n rest = Throw.
Proof using. intros H. unfold read_or_throw, read. case_decide; [done|]. by rewrite decide_True. Qed.
Lemma find_cut ty content bs k st fuel : framed ty content bs -> ty = text "OSMData" \/ ty = text "OSMHeader" -> 4 <= k < length bs ->
  exists ss, find_blob (S fuel) st (take k bs) = Some (ss, FThrow).
Proof using Hntohl Hinflate.
  intros Hf Hty Hk. destruct (framed_read _ _ _ [] Hf) as (header & -> & _ & _ & E3 & Hc). destruct Hf as (header' & es & E & Hh & _).
  assert (header' = header) as ->.
  { assert (length header' = length header) as Hl by (apply (f_equal length) in E; rewrite !app_length in E; cbn in E; lia). injection E as _ _ _ _ E. by apply app_inj_1 in E as [-> _]. }
  unfold header_limit in Hh. clear E. rewrite !app_length in Hk. cbn [be32 length] in Hk.
  assert (take k (be32 (N.of_nat (length header)) ++ header ++ content) = be32 (N.of_nat (length header)) ++ take (k - 4) (header ++ content)) as ->.
  { rewrite take_app_ge by (cbn; lia). done. }
  unfold find_blob. cbn [OsmFileModel.find_blob]. change 4%N with (N.of_nat (length (be32 (N.of_nat (length header))))) at 1. rewrite read_app by (vm_compute; discriminate). rewrite Hntohl by done.
  destruct (decide (k - 4 < length header)) as [Hkh|Hkh].
  { rewrite read_or_throw_short by (rewrite take_length; lia). by eexists. }
  rewrite take_app_ge by lia. rewrite read_or_throw_app by (unfold minimum_read_size; change (2 ^ 16)%N with 65536%N in Hh; lia). rewrite E3. cbn [ret mbind option_bind].
  destruct Hty as [-> | ->].
  - rewrite decide_True by (vm_compute; reflexivity). rewrite read_or_throw_short by (rewrite take_length; lia). by eexists.
  - rewrite decide_False by (vm_compute; discriminate). rewrite decide_True by (vm_compute; reflexivity). destruct (_ && _); [by eexists|]. destruct (_ && _); [by eexists|].
    rewrite read_or_throw_short by (rewrite take_length; lia). by eexists.
Qed.
Lemma decompress_cut file fbs ty content bs k : file_of unzips file fbs -> Forall supported fbs -> header_first fbs ->
  framed ty content bs -> ty = text "OSMData" \/ ty = text "OSMHeader" -> 4 <= k < length bs ->
  exists ss, decompress_file ntohl inflate (file ++ take k bs) = Some (ss, frame <$> data_of fbs, false).
Proof using Hntohl Hinflate.
  intros Hb Hs Hh Hf Hty Hk. destruct (decompress_file_app file fbs (take k bs) Hb Hs Hh) as (ss & st & fuel & E & _ & _ & Hfu). rewrite E.
  destruct fuel as [|fuel]; [lia|]. unfold decompress. cbn [OsmFileModel.decompress].
  destruct (find_cut ty content bs k st (length (take k bs)) Hf Hty Hk) as [ss' E']. unfold find_blob in E'. rewrite E'. cbn [mbind option_bind]. eexists. by rewrite app_nil_r.
Qed.
End file.

(** ** The stream of blocks *)
Lemma frame_len b : length (frame b) = 4 + length b. Proof. done. Qed.
Lemma decode_stream_frame fuel w b rest tm : (N.of_nat (length b) <= minimum_read_size)%N ->
  decode_stream (S fuel) w (frame b ++ rest) tm = '(cs, tm) <- decode_block w b tm; '(r, tm) <- decode_stream fuel w rest tm; ret (cs ++ r, tm).
Proof.
  intros Hl. cbn [decode_stream]. unfold frame. rewrite <- (assoc_L (++)). change 4%N with (N.of_nat (length (store32 (N.of_nat (length b))))) at 1.
  rewrite read_app by (vm_compute; discriminate). rewrite load32_store32 by (unfold minimum_read_size in Hl; change (2 ^ 32)%N with 4294967296%N; lia). by rewrite read_or_throw_app.
Qed.
Lemma decode_stream_nil fuel w tm : decode_stream (S fuel) w [] tm = ret ([], tm).
Proof. done. Qed.

(** ** Elements *)
Lemma item_restrict w h e l : item (mkWanted true true true) h e l -> item w h e (List.filter (chosen w) l).
Proof.
  intros H. destruct H as [s id lat lon tg _ H|s ids lats lons tgs els _ H Hels|s id nodes tg _ H|s id ms tg _ H|k s H1 H2 H3|e H].
  - cbn. destruct (want_nodes w) eqn:E; [by constructor|]. by apply item_unwanted.
  - destruct (want_nodes w) eqn:E.
    + replace (List.filter (chosen w) els) with els; [by eapply item_dense|]. clear H. induction Hels as [|[[id [lat lon]] tg] el l els H1 H2 IH]; [done|]. destruct (position h lat lon) as [la lo]. subst el. cbn. rewrite E. by f_equal.
    + replace (List.filter (chosen w) els) with (@nil element); [by apply item_unwanted|]. clear H. induction Hels as [|[[id [lat lon]] tg] el l els H1 H2 IH]; [done|]. destruct (position h lat lon) as [la lo]. subst el. cbn. by rewrite E.
  - cbn. destruct (want_ways w) eqn:E; [by constructor|]. (apply item_unwanted; [intros [? | ?]|..]; done).
  - cbn. destruct (want_relations w) eqn:E; [by constructor|]. (apply item_unwanted; [intros [? | ?]|..]; done).
  - cbn. apply item_unwanted; intros Hk; [by apply H1 in Hk|by apply H2 in Hk|by apply H3 in Hk].
  - cbn. by apply item_other.
Qed.
Lemma filter_concat {A} (f : A -> bool) ls : List.filter f (concat ls) = concat (map (List.filter f) ls).
Proof. symmetry. apply concat_filter_map. Qed.
Lemma block_restrict w h els : block_elements (mkWanted true true true) h els -> block_elements w h (List.filter (chosen w) els).
Proof.
  intros (ls & Hls & ->). exists (map (List.filter (chosen w)) ls). split; [|apply filter_concat]. rewrite Forall2_fmap_r. eapply Forall2_impl; [exact Hls|].
  intros g els (es & ls' & Hm & Hi & ->). exists es, (map (List.filter (chosen w)) ls'). split; [done|]. split; [|apply filter_concat]. rewrite Forall2_fmap_r. eapply Forall2_impl; [exact Hi|]. intros e l. apply item_restrict.
Qed.
Lemma decode_stream_ok w blocks elss tm fuel : Forall2 block_contains blocks elss -> Forall (fun b => (N.of_nat (length b) <= minimum_read_size)%N) blocks -> tm_wf tm ->
  length (concat (map frame blocks)) < fuel ->
  exists cs tm', decode_stream fuel w (concat (map frame blocks)) tm = ret (cs, tm') /\ tm_wf tm' /\ Forall2 matches (List.filter (chosen w) (concat elss)) cs.
Proof.
  intros Hb. revert tm fuel. induction Hb as [|b els blocks elss Hb Hbs IH]; intros tm fuel Hl Htm Hf.
  - destruct fuel; [cbn in Hf; lia|]. exists [], tm. split; [done|]. split; [done|constructor].
  - apply Forall_cons in Hl as [Hl1 Hl]. cbn [map concat] in *. destruct fuel as [|fuel]; [lia|]. rewrite decode_stream_frame by done. rewrite app_length, frame_len in Hf.
    destruct Hb as (h & Hm & Hel & Hlat & Hlon). unfold decode_block. rewrite (header_ok _ _ Hm), mb_ret.
    apply (block_restrict w) in Hel as (ls & Hls & Els). destruct (groups_ok w h (groups h) ls tm Htm) as (cs & tm1 & E & Htm1 & Hcs); [by left|done|]. rewrite E, mb_ret. cbv beta iota.
    destruct (IH tm1 fuel Hl Htm1) as (r & tm2 & E2 & Htm2 & Hr); [lia|]. rewrite E2, mb_ret. cbv beta iota. exists (cs ++ r), tm2. split; [done|]. split; [done|].
    rewrite List.filter_app. rewrite <- Els in Hcs. by apply Forall2_app.
Qed.

(** ** All files *)
Section any.
Context (ntohl : N -> N) (inflate : list N -> N -> option (list N)).

(** What is known about the status once it has been written: a header will be refused. *)
Definition known (sorted : bool) (s : N) : Prop := good_status sorted s /\ has_bit s was_blob_read_bit || has_bit s was_header_read_bit = true.
Lemma has_bit_testbit x k : has_bit x (2 ^ k) = N.testbit x k.
Proof.
  unfold has_bit. destruct (N.testbit x k) eqn:E.
  - apply negb_true_iff, N.eqb_neq. intros H0. apply (f_equal (fun y => N.testbit y k)) in H0. rewrite N.land_spec, E, N.pow2_bits_true, N.bits_0 in H0. done.
  - apply negb_false_iff, N.eqb_eq. apply N.bits_inj. intros j. rewrite N.land_spec, N.bits_0. destruct (decide (j = k)) as [->|Hjk]; [by rewrite E|]. rewrite N.pow2_bits_false by done. apply andb_false_r.
Qed.
Lemma known_data sorted s : good_status sorted s -> known sorted (N.lor s 5).
Proof.
  intros H. split; [by apply good_data|]. apply orb_true_iff. left. change was_blob_read_bit with (2 ^ 2)%N. rewrite has_bit_testbit, N.lor_spec. apply orb_true_r.
Qed.
Lemma known_refuses sorted s : known sorted s -> has_bit s is_header_info_available_bit && has_bit s was_blob_read_bit = false ->
  has_bit s is_header_info_available_bit && has_bit s was_header_read_bit = false -> False.
Proof. intros [[-> _] H]. cbn [andb]. intros H1 H2. rewrite H1, H2 in H. done. Qed.

Lemma find_known fuel sorted st rest ss f : known sorted st -> find_blob ntohl fuel st rest = Some (ss, f) -> Forall (known sorted) ss /\ known sorted (default st (last ss)).
Proof.
  revert st rest ss f. induction fuel as [|fuel IH]; intros st rest ss f Hk; [done|]. cbn [find_blob].
  destruct (read 4 rest) as [[[p|] r1]|]; [|intros [= <- <-]; by split; [constructor|]..].
  destruct (read_or_throw (ntohl (load32 p)) r1) as [[hd r2]|]; [|intros [= <- <-]; by split; [constructor|]].
  destruct (read_blob_header hd) as [[[ty sz]|]|]; cbn [mbind option_bind]; [|intros [= <- <-]; by split; [constructor|]|done].
  assert (known sorted (N.lor st 5)) as Hk5 by apply known_data, Hk.
  destruct (decide (ty = str "OSMData")).
  { destruct (read_or_throw sz r2) as [[c r3]|]; intros [= <- <-]; by split; [by constructor|]. }
  destruct (decide (ty = str "OSMHeader")).
  { destruct (_ && _) eqn:E1; [intros [= <- <-]; by split; [constructor|]|]. destruct (has_bit st is_header_info_available_bit && has_bit st was_header_read_bit) eqn:E2; [intros [= <- <-]; by split; [constructor|]|].
    by destruct (known_refuses sorted st). }
  destruct (read sz r2) as [[o r3]|]; [|intros [= <- <-]; by split; [constructor|]]. by apply IH.
Qed.
Lemma find_zero fuel rest ss f : find_blob ntohl fuel 0 rest = Some (ss, f) -> ss = [] \/ exists sorted, Forall (known sorted) ss /\ known sorted (default 0%N (last ss)).
Proof.
  revert rest ss f. induction fuel as [|fuel IH]; intros rest ss f; [done|]. cbn [find_blob].
  destruct (read 4 rest) as [[[p|] r1]|]; [|intros [= <- <-]; by left..].
  destruct (read_or_throw (ntohl (load32 p)) r1) as [[hd r2]|]; [|intros [= <- <-]; by left].
  destruct (read_blob_header hd) as [[[ty sz]|]|]; cbn [mbind option_bind]; [|intros [= <- <-]; by left|done].
  destruct (decide (ty = str "OSMData")).
  { assert (known false (N.lor 0 5)) as Hk by (split; [apply good_zero|done]). destruct (read_or_throw sz r2) as [[c r3]|]; intros [= <- <-]; right; exists false; by split; [by constructor|]. }
  destruct (decide (ty = str "OSMHeader")).
  { cbn [has_bit N.land N.eqb negb andb]. destruct (read_or_throw sz r2) as [[c r3]|]; [|intros [= <- <-]; by left].
    destruct (read_header_block c) as [[b|]|]; cbn [mbind option_bind]; [|intros [= <- <-]; by left|done].
    set (s := if b then _ else _). assert (known b s) as Hk by (destruct b; by vm_compute).
    destruct (find_blob ntohl fuel s r3) as [[ss' f']|] eqn:E; [|done]. intros [= <- <-]. apply (find_known _ b) in E as [H1 H2]; [|done]. right. exists b. split; [by constructor|].
    rewrite last_cons. by destruct (last ss'). }
  destruct (read sz r2) as [[o r3]|]; [|intros [= <- <-]; by left]. apply IH.
Qed.
Lemma decompress_known fuel sorted st rest ss bs ok : known sorted st -> decompress ntohl inflate fuel st rest = Some (ss, bs, ok) -> Forall (known sorted) ss.
Proof.
  revert st rest ss bs ok. induction fuel as [|fuel IH]; intros st rest ss bs ok Hk; [done|]. cbn [decompress].
  destruct (find_blob ntohl (S (length rest)) st rest) as [[ss1 f]|] eqn:E; [|done]. cbn [mbind option_bind]. apply (find_known _ sorted) in E as [H1 H2]; [|done].
  destruct f as [| |blob r]; [by intros [= <- <- <-]..|]. destruct (unpack_blob inflate blob) as [[b|]|]; cbn [mbind option_bind]; [|by intros [= <- <- <-]|done].
  destruct (decompress ntohl inflate fuel _ r) as [[[ss2 bs2] ok2]|] eqn:E2; [|done]. intros [= <- <- <-]. apply Forall_app. split; [done|]. by apply IH in E2.
Qed.
Lemma decompress_file_known file ss bs ok : decompress_file ntohl inflate file = Some (ss, bs, ok) -> exists sorted, Forall (good_status sorted) ss.
Proof.
  assert (forall fuel rest, decompress ntohl inflate fuel 0 rest = Some (ss, bs, ok) -> exists sorted, Forall (known sorted) ss) as H.
  2: { intros E. destruct (H _ _ E) as [sorted Hs]. exists sorted. eapply Forall_impl; [exact Hs|]. by intros s [? _]. }
  clear file. intros fuel. revert ss bs ok. induction fuel as [|fuel IH]; intros ss bs ok rest; [done|]. cbn [decompress].
  destruct (find_blob ntohl (S (length rest)) 0 rest) as [[ss1 f]|] eqn:E; [|done]. cbn [mbind option_bind]. apply find_zero in E.
  assert (exists sorted, Forall (known sorted) ss1) as Hs1 by (destruct E as [-> |(b & Hb & _)]; [by exists false|by exists b]).
  destruct f as [| |blob r]; [by intros [= <- <- <-]..|]. destruct (unpack_blob inflate blob) as [[b|]|]; cbn [mbind option_bind]; [|by intros [= <- <- <-]|done].
  destruct (decompress ntohl inflate fuel _ r) as [[[ss2 bs2] ok2]|] eqn:E2; [|done]. intros [= <- <- <-]. destruct E as [-> |(s & H1 & H2)].
  - cbn [last default from_option] in E2. cbn [app]. by apply IH in E2.
  - exists s. apply Forall_app. split; [done|]. by apply (decompress_known _ s) in E2.
Qed.

(** A call writes no more than it is asked for. *)
Lemma unpack_size blob b : unpack_blob inflate blob = ret b -> exists block, b = frame block /\ (N.of_nat (length block) <= minimum_read_size - 4)%N.
Proof.
  unfold unpack_blob. destruct (message_events blob) as [[es|]|]; cbn [mb]; try done.
  destruct (last_string 1 es) as [u|], (last_string 3 es) as [z|]; try done; destruct (last_varint 2 es) as [size|]; try done; (case_decide; [done|]); (case_decide; [done|]).
  - case_decide as HH; [done|]. intros [= <-]. exists u. assert (size = N.of_nat (length u)) as -> by (destruct (decide (size = N.of_nat (length u))); tauto). split; [done|lia].
  - destruct (inflate z (minimum_read_size - 4)) as [bs|]; [|done]. case_decide as HH; [done|]. intros [= <-]. exists bs.
    assert (size = N.of_nat (length bs)) as -> by (destruct (decide (N.of_nat (length bs) = size)); [done|tauto]). split; [done|lia].
Qed.
Lemma decompress_size fuel st rest ss bs ok : decompress ntohl inflate fuel st rest = Some (ss, bs, ok) ->
  exists blocks, bs = frame <$> blocks /\ Forall (fun b => N.of_nat (length b) <= minimum_read_size - 4)%N blocks.
Proof.
  revert st rest ss bs ok. induction fuel as [|fuel IH]; intros st rest ss bs ok; [done|]. cbn [decompress].
  destruct (find_blob ntohl (S (length rest)) st rest) as [[ss1 f]|]; [|done]. cbn [mbind option_bind].
  destruct f as [| |blob r]; [intros [= <- <- <-]; by exists []..|]. destruct (unpack_blob inflate blob) as [[b|]|] eqn:Eu; cbn [mbind option_bind]; [|intros [= <- <- <-]; by exists []|done].
  destruct (decompress ntohl inflate fuel _ r) as [[[ss2 bs2] ok2]|] eqn:E2; [|done]. intros [= <- <- <-]. apply IH in E2 as (blocks & -> & Hb). apply unpack_size in Eu as (block & -> & Hl).
  exists (block :: blocks). split; [done|]. by constructor.
Qed.
End any.

(** ** Parts of a file *)
Lemma part_trans p q l : part p q -> part q l -> part p l.
Proof. intros (a & b & ->) (c & d & ->). exists (c ++ a), (b ++ d). by rewrite !(assoc_L (++)). Qed.
Lemma part_refl l : part l l. Proof. exists [], []. by rewrite app_nil_r. Qed.
Lemma part_take n l : part (take n l) l. Proof. exists [], (drop n l). by rewrite app_nil_l, take_drop. Qed.
Lemma part_drop n l : part (drop n l) l. Proof. exists (take n l), []. by rewrite app_nil_r, take_drop. Qed.
Lemma varint_loop_part bs n k v rest : varint_loop bs n k = Some (Ret (v, rest)) -> part rest bs.
Proof.
  revert n k. induction bs as [|b bs IH]; intros n k; cbn [varint_loop]; [done|]. destruct (N.testbit b 7).
  - case_decide; [done|]. destruct (chk _); [|done]. cbn [mbind option_bind]. intros HI%IH. eapply part_trans; [exact HI|]. exists [b], []. by rewrite app_nil_r.
  - destruct (chk _); [|done]. cbn [mbind option_bind]. intros [= <- <-]. exists [b], []. by rewrite app_nil_r.
Qed.
Lemma decode_varint_part bs v rest : decode_varint bs = Some (Ret (v, rest)) -> part rest bs.
Proof. apply varint_loop_part. Qed.
Lemma walk_part fuel bs es ok : walk_loop fuel bs = Some (es, ok) -> forall k s, EString k s ∈ es -> part s bs.
Proof.
  revert bs es ok. induction fuel as [|fuel IH]; intros bs es ok.
  - destruct bs; cbn; [|done]. intros [= <- <-] k s Hin. by apply elem_of_nil in Hin.
  - destruct bs as [|b bs]; [cbn; intros [= <- <-] k s Hin; by apply elem_of_nil in Hin|]. cbn [walk_loop]. set (l := b :: bs). clearbody l. clear b bs.
    destruct (decode_varint l) as [[[h r1]|]|] eqn:E1; cbn [mbind option_bind]; [|intros [= <- <-] k s Hin; by apply elem_of_nil in Hin|done].
    apply decode_varint_part in E1. set (ty := N.land h 7). clearbody ty.
    assert (forall r e es0 ok0 es' ok', part r l -> walk_loop fuel r = Some (es0, ok0) -> Some (e :: es0, ok0) = Some (es', ok') -> (forall k s, e = EString k s -> part s l) ->
      forall k s, EString k s ∈ es' -> part s l) as Hstep.
    { intros r e es0 ok0 es' ok' Hr Hw [= <- <-] He k s [Hin|Hin]%elem_of_cons; [by eapply He|]. eapply part_trans; [|exact Hr]. by eapply IH. }
    destruct ty as [|[[[?|?|]|[?|?|]|]|[?|[?|?|]|]|]]; try (intros [= <- <-] k s Hin; by apply elem_of_nil in Hin).
    + destruct (decode_varint r1) as [[[v r2]|]|] eqn:E2; cbn [mbind option_bind]; [|intros [= <- <-] k s Hin; by apply elem_of_nil in Hin|done].
      apply decode_varint_part in E2. destruct (walk_loop fuel r2) as [[es0 ok0]|] eqn:E3; [|done]. cbn [mbind option_bind]. intros E. eapply Hstep; [by eapply part_trans|exact E3|exact E|done].
    + case_decide; [intros [= <- <-] k s Hin; by apply elem_of_nil in Hin|]. destruct (walk_loop fuel (drop 4 r1)) as [[es0 ok0]|] eqn:E3; [|done]. cbn [mbind option_bind]. intros E. eapply Hstep; [eapply part_trans; [apply part_drop|exact E1]|exact E3|exact E|done].
    + destruct (decode_varint r1) as [[[v r2]|]|] eqn:E2; cbn [mbind option_bind]; [|intros [= <- <-] k s Hin; by apply elem_of_nil in Hin|done].
      apply decode_varint_part in E2. case_decide; [intros [= <- <-] k s Hin; by apply elem_of_nil in Hin|]. destruct (walk_loop fuel (drop (N.to_nat v) r2)) as [[es0 ok0]|] eqn:E3; [|done]. cbn [mbind option_bind]. intros E.
      eapply Hstep; [eapply part_trans; [apply part_drop|by eapply part_trans]|exact E3|exact E|]. intros k s [= <- <-]. eapply part_trans; [apply part_take|by eapply part_trans].
    + case_decide; [intros [= <- <-] k s Hin; by apply elem_of_nil in Hin|]. destruct (walk_loop fuel (drop 8 r1)) as [[es0 ok0]|] eqn:E3; [|done]. cbn [mbind option_bind]. intros E. eapply Hstep; [eapply part_trans; [apply part_drop|exact E1]|exact E3|exact E|done].
Qed.
Lemma read_part n rest o r : read n rest = Ret (o, r) -> part r rest /\ (forall p, o = Some p -> part p rest).
Proof.
  unfold read. case_decide; [done|]. case_decide; intros [= <- <-]; [split; [apply part_refl|done]|]. split; [apply part_drop|]. intros p [= <-]. apply part_take.
Qed.
Lemma read_or_throw_part n rest p r : read_or_throw n rest = Ret (p, r) -> part r rest /\ part p rest.
Proof. unfold read_or_throw. destruct (read n rest) as [[[q|] r']|] eqn:E; try done. intros [= <- <-]. apply read_part in E as [H1 H2]. split; [done|]. by apply H2. Qed.
Lemma equal_chars_none s lit : equal_chars s lit = None -> lit `prefix_of` s.
Proof.
  revert lit. induction s as [|a s IH]; intros [|b lit]; cbn [equal_chars]; try done; [intros _; apply prefix_nil|]. case_decide; [|done]. subst. intros H. by apply prefix_cons, IH.
Qed.
Lemma std_equal_none s lit : std_equal s lit = None -> part (text lit ++ [0%N]) s.
Proof. intros [r ->]%equal_chars_none. by exists [], r. Qed.
Lemma header_strings_none es b : header_strings es b = None -> exists k s, EString k s ∈ es /\ (part (text "DenseNodes" ++ [0%N]) s \/ part (text "Sort.Type_then_ID" ++ [0%N]) s).
Proof.
  revert b. induction es as [|e es IH]; intros b; [done|]. destruct e as [k v|k v|k v|k s]; cbn [header_strings];
    try (intros (k' & s' & H1 & H2)%IH; exists k', s'; split; [by apply elem_of_cons; right|done]).
  unfold header_string. destruct (decide (k = 4%N)).
  - destruct (std_equal s "DenseNodes") as [[]|] eqn:E; cbn [mbind option_bind mb ret throw]; [|done|].
    + intros (k' & s' & H1 & H2)%IH. exists k', s'. split; [by apply elem_of_cons; right|done].
    + intros _. exists k, s. split; [by apply elem_of_cons; left|]. left. by apply std_equal_none.
  - destruct (decide (k = 5%N)).
    + destruct (std_equal s "Sort.Type_then_ID") as [x|] eqn:E; cbn [mbind option_bind mb ret throw].
      * intros (k' & s' & H1 & H2)%IH. exists k', s'. split; [by apply elem_of_cons; right|done].
      * intros _. exists k, s. split; [by apply elem_of_cons; left|]. right. by apply std_equal_none.
    + intros (k' & s' & H1 & H2)%IH. exists k', s'. split; [by apply elem_of_cons; right|done].
Qed.

Section defined.
Context (ntohl : N -> N) (inflate : list N -> N -> option (list N)) (file : list N).
Hypothesis Hwalk : forall p, part p file -> walk p <> None.
Hypothesis Hdense : ~ part (text "DenseNodes" ++ [0%N]) file.
Hypothesis Hsort : ~ part (text "Sort.Type_then_ID" ++ [0%N]) file.

Lemma message_defined p : part p file -> message_events p <> None.
Proof using Hwalk. intros Hp. unfold message_events. specialize (Hwalk p Hp). destruct (walk p) as [[es []]|]; done. Qed.
Lemma blob_header_defined p : part p file -> read_blob_header p <> None.
Proof using Hwalk. intros Hp%message_defined. unfold read_blob_header. destruct (message_events p) as [[es|]|]; cbn [mb]; try done. by case_decide. Qed.
Lemma header_block_defined p : part p file -> read_header_block p <> None.
Proof using Hwalk Hdense Hsort inflate.
  intros Hp. unfold read_header_block. specialize (Hwalk p Hp). destruct (walk p) as [[es ok]|] eqn:E; [|done]. cbn [mbind option_bind].
  destruct (header_strings es false) as [[b|]|] eqn:Eh; cbn [mb]; [by destruct ok|done|]. exfalso. apply header_strings_none in Eh as (k & s & Hin & Hs).
  pose proof (walk_part _ _ _ _ E k s Hin) as Hps. destruct Hs as [Hs|Hs]; [apply Hdense|apply Hsort]; by (eapply part_trans; [exact Hs|]; eapply part_trans).
Qed.
Lemma find_defined fuel st rest : part rest file -> length rest < fuel -> exists ss f, find_blob ntohl fuel st rest = Some (ss, f) /\
  match f with FBlob blob r => part blob file /\ part r file /\ length r < length rest | _ => True end.
Proof using Hwalk Hdense Hsort inflate.
  revert st rest. induction fuel as [|fuel IH]; intros st rest Hp Hf; [lia|]. cbn [find_blob].
  destruct (read 4 rest) as [[[p|] r1]|] eqn:E1; [|by eexists _, _..].
  pose proof (read_shorter _ _ _ _ E1) as [_ Hl1]. specialize (Hl1 p eq_refl). change (N.to_nat 4) with 4 in Hl1. apply read_part in E1 as [P1 _].
  destruct (read_or_throw (ntohl (load32 p)) r1) as [[hd r2]|] eqn:E2; [|by eexists _, _]. pose proof (read_or_throw_shorter _ _ _ _ E2) as Hl2. apply read_or_throw_part in E2 as [P2 P2'].
  assert (part hd file) as Phd by (eapply part_trans; [exact P2'|]; eapply part_trans; [exact P1|exact Hp]).
  assert (part r2 file) as Pr2 by (eapply part_trans; [exact P2|]; eapply part_trans; [exact P1|exact Hp]).
  pose proof (blob_header_defined hd Phd) as Hd. destruct (read_blob_header hd) as [[[ty sz]|]|]; cbn [mbind option_bind]; [|by eexists _, _|done].
  destruct (decide (ty = str "OSMData")).
  { destruct (read_or_throw sz r2) as [[c r3]|] eqn:E3; [|by eexists _, _]. pose proof (read_or_throw_shorter _ _ _ _ E3). apply read_or_throw_part in E3 as [P3 P3'].
    eexists _, _. split; [done|]. split; [by eapply part_trans|]. split; [by eapply part_trans|lia]. }
  destruct (decide (ty = str "OSMHeader")).
  { destruct (_ && _); [by eexists _, _|]. destruct (_ && _); [by eexists _, _|]. destruct (read_or_throw sz r2) as [[c r3]|] eqn:E3; [|by eexists _, _].
    pose proof (read_or_throw_shorter _ _ _ _ E3). apply read_or_throw_part in E3 as [P3 P3'].
    pose proof (header_block_defined c ltac:(by eapply part_trans)) as Hb. destruct (read_header_block c) as [[b|]|]; cbn [mbind option_bind]; [|by eexists _, _|done].
    set (s := if b then _ else _). destruct (IH s r3) as (ss & f & E & Hfb); [by eapply part_trans|lia|]. rewrite E. cbn [mbind option_bind]. eexists _, f. split; [done|]. destruct f; try done. split; [apply Hfb|]. split; [apply Hfb|]. destruct Hfb as (_ & _ & Hfb). lia. }
  destruct (read sz r2) as [[o r3]|] eqn:E3; [|by eexists _, _]. pose proof (read_shorter _ _ _ _ E3) as [Hl3 _]. apply read_part in E3 as [P3 _].
  destruct (IH st r3) as (ss & f & E & Hfb); [by eapply part_trans|lia|]. exists ss, f. split; [done|]. destruct f; try done. split; [apply Hfb|]. split; [apply Hfb|]. destruct Hfb as (_ & _ & Hfb). lia.
Qed.
Lemma unpack_defined blob : part blob file -> unpack_blob inflate blob <> None.
Proof using Hwalk.
  intros Hp%message_defined. unfold unpack_blob. destruct (message_events blob) as [[es|]|]; cbn [mb]; try done.
  destruct (last_string 1 es) as [u|], (last_string 3 es) as [z|]; try done; destruct (last_varint 2 es) as [size|]; try done; (case_decide; [done|]); (case_decide; [done|]).
  - by case_decide.
  - destruct (inflate z (minimum_read_size - 4)) as [bs|]; [|done]. by case_decide.
Qed.
Lemma decompress_defined fuel st rest : part rest file -> length rest < fuel -> is_Some (decompress ntohl inflate fuel st rest).
Proof using Hwalk Hdense Hsort inflate.
  revert st rest. induction fuel as [|fuel IH]; intros st rest Hp Hf; [lia|]. cbn [decompress].
  destruct (find_defined (S (length rest)) st rest Hp) as (ss & f & E & Hfb); [lia|]. rewrite E. cbn [mbind option_bind]. destruct f as [| |blob r]; [by eexists..|]. destruct Hfb as (Pb & Pr & Hl).
  pose proof (unpack_defined blob Pb) as Hu. destruct (unpack_blob inflate blob) as [[b|]|]; cbn [mbind option_bind]; [|by eexists|done].
  destruct (IH (default st (last ss)) r Pr) as [[[ss' bs'] ok'] E']; [lia|]. rewrite E'. by eexists.
Qed.
End defined.
