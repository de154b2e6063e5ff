(** C40: vector files. *)
From Verif Require Import Base ProtobufModel BitVectorModel BitVectorSpec BitVectorProofs VectorIoModel VectorIoProofs.
Ltac Zify.zify_post_hook ::= Z.div_mod_to_equations.

(** ** Vectors of plain data: any type whose values are read back from their memory image *)
Section pod.
  Context {A : Type} (sz : nat) (enc : A -> list N) (dec : list N -> A) (ok : A -> Prop).
  Definition image : Prop := 0 < sz /\ forall x, ok x -> length (enc x) = sz /\ dec (enc x) = x.
  Lemma map_dec v : image -> Forall ok v -> dec <$> (enc <$> v) = v.
  Proof.
    intros [_ Hi] Hv. rewrite <- list_fmap_compose. rewrite <- (list_fmap_id v) at 2. apply list_fmap_ext. intros i x Hx. apply Hi. rewrite Forall_forall in Hv. apply Hv. by eapply elem_of_list_lookup_2.
  Qed.
  Lemma enc_len v : image -> Forall ok v -> forall x, x ∈ v -> length (enc x) = sz.
  Proof. intros [_ Hi] Hv x Hx. apply Hi. rewrite Forall_forall in Hv. by apply Hv. Qed.

  Theorem C40_vector v : image -> Forall ok v -> load_vector sz dec (save_vector enc v) = Ret v.
  Proof.
    intros Hi Hv. pose proof Hi as [Hs _]. pose proof (enc_len v Hi Hv) as Hl. unfold load_vector, save_vector. rewrite (concat_length sz) by done.
    rewrite Nat.mod_mul by lia. rewrite decide_False by lia. rewrite Nat.div_mul by lia. f_equal.
    rewrite <- (app_nil_r (concat _)). rewrite groups_concat by done. by apply map_dec.
  Qed.
  Theorem C40_value x : image -> ok x -> load_value sz dec (save_value enc x) = Ret x.
  Proof. intros Hi Hx. unfold load_value, save_value. rewrite C40_vector; [done|done|]. by apply Forall_singleton. Qed.
  (** Streams: what was written is read back, and the rest of the stream is left. *)
  Theorem C40_stream v rest : image -> Forall ok v -> read_vector sz dec (length v) (write_vector enc [] v ++ rest) = Ret (v, rest).
  Proof.
    intros Hi Hv. pose proof (enc_len v Hi Hv) as Hl. unfold read_vector, write_vector, read_bytes. cbn [app]. pose proof (concat_length sz enc v Hl) as Hc.
    rewrite decide_False by (rewrite app_length; lia). rewrite take_app_alt, drop_app_alt by lia. f_equal. f_equal.
    rewrite <- (app_nil_r (concat _)). rewrite groups_concat by done. by apply map_dec.
  Qed.
  Theorem C40_stream_value x rest : image -> ok x -> read_value sz dec (write_value enc [] x ++ rest) = Ret (x, rest).
  Proof.
    intros [_ Hi] Hx. destruct (Hi x Hx) as [Hl Hd]. unfold read_value, write_value, read_bytes. cbn [app]. rewrite decide_False by (rewrite app_length; lia).
    rewrite take_app_alt, drop_app_alt by lia. by rewrite Hd.
  Qed.
  (** A file is rejected exactly if its size is no multiple of the element size. Otherwise
      all of it is represented: if byte groups are read back too, saving gives the same file. *)
  Theorem C40_vector_rejects file : 0 < sz -> load_vector sz dec file = Throw <-> length file mod sz <> 0.
  Proof. intros Hs. unfold load_vector. case_decide; split; try done. Qed.
  Theorem C40_vector_complete file v : 0 < sz -> (forall bs, length bs = sz -> enc (dec bs) = bs) -> load_vector sz dec file = Ret v -> save_vector enc v = file.
  Proof.
    intros Hs Hb. unfold load_vector, save_vector. case_decide as Hd; [done|]. intros [= <-].
    assert (length file = length file / sz * sz) as E. { pose proof (Nat.div_mod (length file) sz ltac:(lia)). lia. }
    rewrite <- list_fmap_compose. rewrite <- (groups_all (length file / sz) sz file) at 3 by done. f_equal. rewrite <- list_fmap_id.
    apply list_fmap_ext. intros i x Hx. cbn. apply Hb. pose proof (groups_each _ _ _ E) as Hf. rewrite Forall_forall in Hf. apply Hf. by eapply elem_of_list_lookup_2.
  Qed.
End pod.
Print Assumptions C40_vector.
Print Assumptions C40_value.
Print Assumptions C40_stream.
Print Assumptions C40_stream_value.
Print Assumptions C40_vector_rejects.
Print Assumptions C40_vector_complete.

(** Unsigned integers of any width are such types. *)
Theorem C40_unsigned k : 0 < k -> image k (le_bytes k) le_word (fun w => w < 256 ^ N.of_nat k)%N.
Proof. intros Hk. split; [done|]. intros x Hx. split; [apply le_bytes_length|by apply le_word_bytes]. Qed.
Print Assumptions C40_unsigned.

(** ** Strings *)
Theorem C40_strings v : Forall (fun s => 0%N ∉ s) v -> load_strings (save_strings v) = v.
Proof. intros H. unfold load_strings. rewrite split_strings_spec; [by destruct v|done|by intros ?%elem_of_nil]. Qed.
Print Assumptions C40_strings.
(** A string with a zero byte is split; a file that does not end with a zero byte is accepted and its tail lost. *)
Theorem C40_embedded_zero_refuted : exists v, load_strings (save_strings v) <> v.
Proof. exists [[97; 0; 98]%N]. vm_compute. congruence. Qed.
Print Assumptions C40_embedded_zero_refuted.
Theorem C40_tail_refuted : exists file, file <> [] /\ load_strings file = [].
Proof. exists [97; 98; 99]%N. done. Qed.
Print Assumptions C40_tail_refuted.

(** ** Bit vectors *)
Theorem C40_bits v l garbage : bv_rep v l -> (N.of_nat (length l) + 511 < 2 ^ 64)%N -> length garbage = 8 ->
  exists r, load_bits garbage (save_bits v) = Ret r /\ bv_rep (loaded r) l.
Proof.
  intros Hv Hn Hg. pose proof Hv as [Hsz Hlen Hw Hb _]. unfold load_bits, save_bits.
  assert (length (le_bytes 8 (N.of_nat (bv_size v))) = 8) as H8 by apply le_bytes_length.
  rewrite take_app_alt, drop_app_alt by done. rewrite H8. rewrite (drop_ge garbage) by lia. rewrite app_nil_r.
  rewrite app_length, H8. rewrite (concat_length 8) by (intros; apply le_bytes_length).
  rewrite le_word_bytes by (change (256 ^ N.of_nat 8)%N with (2 ^ 64)%N; rewrite Hsz; lia). cbv zeta.
  rewrite N.mod_small by (rewrite Hsz; lia). rewrite Hlen, Hsz. remember (length l) as n eqn:Eln.
  assert ((N.of_nat n + 511) / 512 = N.of_nat ((n + 511) / 512))%N as En by (clear; lia). rewrite En. rewrite decide_False by (clear; lia).
  eexists. split; [done|]. rewrite Nat2N.id. replace (8 * ((n + 511) / 512)) with (length (bv_data v)) by lia.
  rewrite <- (app_nil_r (concat _)). rewrite words_groups by done. unfold loaded. cbn [fst snd]. case_decide as H0.
  - destruct l; [|cbn in Eln; lia]. cbn in Eln. subst n. split; cbn; try done. intros x. unfold bit_at. rewrite nth_overflow by (cbn; lia). rewrite N.bits_0. by destruct x.
  - rewrite Nat2N.id. split; cbn [bv_size bv_data bv_null]; try done; congruence.
Qed.
Print Assumptions C40_bits.
(** A stream of blocks whose size is known (h:141-151). *)
Theorem C40_bits_stream v l rest : bv_rep v l -> exists v', read_bits (length l) (write_bits [] v ++ rest) = Ret (v', rest) /\ bv_rep v' l.
Proof.
  intros Hv. pose proof Hv as [Hsz Hlen Hw Hb _]. unfold read_bits, write_bits, read_bytes. cbn [app].
  pose proof (concat_length 8 (le_bytes 8) (bv_data v) ltac:(intros; apply le_bytes_length)) as Hc. rewrite Hlen in Hc.
  rewrite decide_False by (rewrite app_length, Hc; lia). rewrite take_app_alt, drop_app_alt by (rewrite Hc; lia). eexists. split; [done|].
  rewrite <- Hlen. rewrite <- (app_nil_r (concat _)). rewrite words_groups by done. unfold loaded. cbn [fst snd]. case_decide as H0.
  - destruct l; [|cbn in H0; lia]. split; cbn; try done. intros x. unfold bit_at. rewrite nth_overflow by (cbn; lia). rewrite N.bits_0. by destruct x.
  - rewrite Nat2N.id. split; cbn [bv_size bv_data bv_null]; done.
Qed.
Print Assumptions C40_bits_stream.
(** Files whose size does not fit to the number of bits are rejected if that number is below
    2^64 - 511; so are files that are too short to contain it. *)
Theorem C40_bits_rejects garbage file r : length garbage = 8 -> Forall (fun b => b < 256)%N garbage -> Forall (fun b => b < 256)%N file ->
  load_bits garbage file = Ret r -> 8 <= length file /\ fst r = le_word (take 8 file) /\
  ((fst r + 511 < 2 ^ 64)%N -> N.of_nat (length file) = ((fst r + 511) / 512 * 64 + 8)%N).
Proof.
  intros Hg Hgb Hfb. unfold load_bits. cbv zeta. case_decide as Hd; [done|]. intros [= <-]. cbn [fst].
  set (size := le_word _) in *.
  assert (8 <= length file) as H8.
  { destruct (decide (8 <= length file)); [done|]. exfalso. set (q := ((size + 511) mod 2 ^ 64 / 512)%N) in *. clearbody q. clear -n Hd. lia. }
  split; [done|]. assert (size = le_word (take 8 file)) as Es. { unfold size. rewrite take_length, Nat.min_l by done. rewrite (drop_ge garbage) by lia. by rewrite app_nil_r. }
  split; [done|]. intros Hs. rewrite N.mod_small in Hd by done. done.
Qed.
Print Assumptions C40_bits_rejects.
(** Near 2^64 the size check wraps around: eight bytes 255 are taken for a vector of 2^64 - 1
    bits without a single word. *)
Theorem C40_bits_wrap_refuted : exists file, forall garbage, length garbage = 8 -> load_bits garbage file = Ret (2 ^ 64 - 1, [])%N.
Proof. exists (replicate 8 255%N). intros g Hg. unfold load_bits. change (take 8 (replicate 8 255%N)) with (replicate 8 255%N). change (length (replicate 8 255%N)) with 8.
  rewrite (drop_ge g) by lia. reflexivity. Qed.
Print Assumptions C40_bits_wrap_refuted.
(** Bits behind the end are loaded as they are: the vector has size 1 but two bits are counted, and it is
    not equal to the vector it represents. *)
Theorem C40_bits_padding_refuted : exists file r, load_bits (replicate 8 0%N) file = Ret r /\ bv_size (loaded r) = 1 /\ bv_popcount (loaded r) = Some 2 /\
  bv_is_set (loaded r) 0 = Some true /\ exists v, bv_new 1 true = Some v /\ bv_eq (loaded r) v = Some false.
Proof.
  exists (le_bytes 8 1 ++ 3%N :: replicate 63 0%N). eexists. split; [vm_compute; reflexivity|]. split; [reflexivity|]. split; [reflexivity|]. split; [reflexivity|].
  eexists. split; [vm_compute; reflexivity|]. vm_compute. reflexivity.
Qed.
Print Assumptions C40_bits_padding_refuted.

(** Non-trivial inputs. *)
Example C40_ex : image 4 (le_bytes 4) le_word (fun w => w < 256 ^ N.of_nat 4)%N /\ Forall (fun w => w < 256 ^ N.of_nat 4)%N [7; 4294967295; 65536]%N /\
  save_vector (le_bytes 4) [7; 4294967295; 65536]%N = [7; 0; 0; 0; 255; 255; 255; 255; 0; 0; 1; 0]%N /\
  load_vector 4 le_word [7; 0; 0; 0; 255; 255; 255; 255; 0; 0; 1; 0]%N = Ret [7; 4294967295; 65536]%N /\ load_vector 4 le_word [7; 0; 0; 0; 255]%N = Throw /\
  save_strings [[97]; []; [98; 99]]%N = [97; 0; 0; 98; 99; 0]%N.
Proof. split; [apply C40_unsigned; lia|]. split; [repeat constructor|]. vm_compute. done. Qed.
Example C40_ex_bits : exists v, bv_new 600 true = Some v /\ length (save_bits v) = 136 /\ load_bits (replicate 8 9%N) (save_bits v) = Ret (600%N, bv_data v).
Proof. eexists. split; [vm_compute; reflexivity|]. vm_compute. done. Qed.
