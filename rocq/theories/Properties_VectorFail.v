(** C86: files written to and read from devices that fail.

    Full statement (false): if a file could not be stored or read completely, an exception is thrown. *)
From Verif Require Import Base ProtobufModel BitVectorModel BitVectorSpec BitVectorProofs BitVectorBulkProofs PermutationModel VectorIoModel VectorIoProofs Properties_VectorIo
  ChBuildModel ChSpec Properties_ChQuery ChFileModel ChFileSpec ChFileProofs Properties_ChFile VectorFailSpec VectorFailModel VectorFailProofs.
Ltac Zify.zify_post_hook ::= idtac.

(** ** Saving *)
(** What is stored is the beginning of the file, and an exception is thrown only if the file can not be opened
    - by save_vector of strings not even then. So nothing that happens later is reported. *)
Theorem C86_save_vector_partial {A} : forall room pushes (enc : A -> list N) opens v,
  save_vector_file room pushes enc opens v = if opens then (Ret tt, Some (stored room (save_vector enc v))) else (Throw, None).
Proof.
  intros room pushes enc [] v; [|done]. unfold save_vector_file. do 2 f_equal.
  apply (close_inv room pushes). apply (write_inv room pushes [] _ _). apply opened_inv.
Qed.
Print Assumptions C86_save_vector_partial.
Theorem C86_save_strings_partial : forall room pushes opens v,
  save_strings_file room pushes opens v = (Ret tt, if opens then Some (stored room (save_strings v)) else None).
Proof.
  intros room pushes [] v; [|done]. unfold save_strings_file. cbn [negb]. do 2 f_equal.
  apply (close_inv room pushes). apply (strings_inv room pushes v []). apply opened_inv.
Qed.
Print Assumptions C86_save_strings_partial.
Theorem C86_save_bits_partial : forall room pushes opens v,
  save_bits_file room pushes opens v = if opens then (Ret tt, Some (stored room (save_bits v))) else (Throw, None).
Proof.
  intros room pushes [] v; [|done]. unfold save_bits_file. do 2 f_equal.
  apply (close_inv room pushes). apply write_inv. apply (write_inv room pushes []). apply opened_inv.
Qed.
Print Assumptions C86_save_bits_partial.
(** The functions on streams and save_file of hierarchies test the stream. They never throw without a reason,
    whether they throw or not, the file is the beginning of what it should be, and on streams without
    a buffer they throw if and only if something is lost. *)
Theorem C86_save_ch_partial : forall room pushes opens pad o, exists r,
  save_ch_file room pushes opens pad o = (r, if opens then Some (stored room (save_ch pad o)) else None) /\
  (r = Throw -> opens = false \/ lost room (save_ch pad o)) /\ (opens = false -> r = Throw) /\
  (opens = true -> (forall i, length (save_ch pad o) <= pushes i) -> r = Throw <-> lost room (save_ch pad o)).
Proof.
  intros room pushes [] pad o.
  - destruct (saved_writes room pushes _ _ (write_ch_writes room pushes pad o)) as (r & E & H1 & H2). exists r. split; [exact E|].
    split; [|split; [done|by intros _]]. intros ->. right. unfold lost. destruct (decide (room < length (save_ch pad o))) as [|n]; [done|].
    apply not_lt in n. apply H1 in n. done.
  - exists Throw. cbn. split_and!; try done. intros _. by left.
Qed.
Print Assumptions C86_save_ch_partial.
(** Any sequence of calls of write_value and write_vector on a stream. *)
Theorem C86_stream_partial : forall room pushes (chunks : list (list N)), exists r,
  open_file_for_saving room true (foldr (fun bs q => step (checked_write room pushes bs) q) (fun s => (Ret tt, s)) chunks) = (r, Some (stored room (concat chunks))) /\
  (r = Throw -> lost room (concat chunks)) /\ ((forall i, length (concat chunks) <= pushes i) -> r = Throw <-> lost room (concat chunks)).
Proof.
  intros room pushes chunks.
  assert (os_writes room pushes (foldr (fun bs q => step (checked_write room pushes bs) q) (fun s => (Ret tt, s)) chunks) (concat chunks)) as H.
  { induction chunks as [|bs chunks IH]; cbn [foldr concat].
    - intros T s Hb Hs. cbn [fst snd]. rewrite app_nil_r, Hb. done.
    - apply step_writes; [apply checked_writes|done]. }
  destruct (saved_writes room pushes _ _ H) as (r & E & H1 & H2). exists r. split; [exact E|]. split; [|exact H2].
  intros ->. unfold lost. destruct (decide (room < length (concat chunks))) as [|n]; [done|]. apply not_lt in n. apply H1 in n. done.
Qed.
Print Assumptions C86_stream_partial.

(** ** Loading what was stored *)
(** Vectors: the first elements, if the number of bytes is a multiple of the size of an element. *)
Theorem C86_load_vector_partial {A} : forall sz (enc : A -> list N) dec ok room v, image sz enc dec ok -> Forall ok v ->
  load_vector sz dec (stored room (save_vector enc v)) = if decide (room < length v * sz /\ room mod sz <> 0) then Throw else Ret (take (room / sz) v).
Proof.
  intros sz enc dec ok room v Hi Hv. pose proof (enc_len sz enc dec ok v Hi Hv) as Hl. pose proof (concat_length sz enc v Hl) as Hc. pose proof Hi as [Hs _].
  pose proof (Nat.div_mod room sz ltac:(lia)) as Hd. unfold stored, save_vector. case_decide as Hr.
  - apply C40_vector_rejects; [done|]. rewrite take_length, Hc. destruct Hr as [H1 H2]. by rewrite Nat.min_l by lia.
  - destruct (decide (room < length v * sz)) as [Hlt|Hlt].
    + assert (room mod sz = 0) as E0 by (destruct (decide (room mod sz = 0)); [done|by exfalso; apply Hr]). rewrite E0 in Hd.
      replace room with (room / sz * sz) at 1 by lia. rewrite take_concat by done. apply (C40_vector sz enc dec ok); [done|]. by apply Forall_take.
    + rewrite take_ge by (rewrite Hc; lia). rewrite take_ge by (apply Nat.div_le_lower_bound; lia). by apply (C40_vector sz enc dec ok).
Qed.
Print Assumptions C86_load_vector_partial.
(** Strings: those that were stored completely. *)
Theorem C86_load_strings_partial : forall room v, Forall (fun s => 0%N ∉ s) v -> exists k,
  complete_strings v room k /\ load_strings (stored room (save_strings v)) = take k v.
Proof. intros room v. apply strings_prefix. Qed.
Print Assumptions C86_load_strings_partial.
(** Bit vectors and hierarchies: any loss is noticed. *)
Theorem C86_load_bits : forall room v l garbage, bv_rep v l -> (N.of_nat (length l) + 511 < 2 ^ 64)%N -> length garbage = 8 ->
  lost room (save_bits v) -> load_bits garbage (stored room (save_bits v)) = Throw.
Proof.
  intros room v l garbage Hv Hn Hg Hr. unfold lost, stored, load_bits in *. cbv zeta. pose proof Hv as [Hsz Hlen _ _ _].
  pose proof (concat_length 8 (le_bytes 8) (bv_data v) ltac:(intros; apply le_bytes_length)) as Hc. rewrite Hlen in Hc.
  assert (length (save_bits v) = 8 + (length l + 511) / 512 * 64) as Ls by (unfold save_bits; rewrite app_length, le_bytes_length, Hc; lia).
  rewrite decide_True; [done|]. assert (length (take room (save_bits v)) = room) as -> by (rewrite take_length; lia). destruct (decide (room < 8)) as [H8|H8].
  - set (q := (_ / 512)%N). clearbody q. lia.
  - rewrite take_take, Nat.min_l by lia. unfold save_bits. rewrite take_app_alt by (symmetry; apply le_bytes_length). rewrite le_bytes_length, (drop_ge garbage) by lia. rewrite app_nil_r.
    rewrite le_word_bytes by (change (256 ^ N.of_nat 8)%N with (2 ^ 64)%N; rewrite Hsz; lia). rewrite Hsz. rewrite N.mod_small by lia.
    assert ((N.of_nat (length l) + 511) / 512 = N.of_nat ((length l + 511) / 512))%N as -> by (rewrite Nat2N.inj_div, Nat2N.inj_add; done). lia.
Qed.
Print Assumptions C86_load_bits.
Theorem C86_load_ch : forall room pad o c, length pad = 4 -> ch_object o c -> ch_fits c -> (numbers_in c < 2 ^ 32)%N ->
  lost room (save_ch pad o) -> load_ch (stored room (save_ch pad o)) = Some Throw.
Proof.
  intros room pad o c Hp Ho Hc Hw Hr. unfold lost, stored in *. destruct (fits_header o c Ho Hc) as [H32 Ew]. pose proof (write_size pad o c Hp Ho Hc) as Hs.
  assert (exists rest, read_header (save_ch pad o) = Some (Ret (header_of o, rest))) as [rest Eh]. { unfold save_ch. rewrite write_ch_bytes, read_header_app by done. eauto. }
  unfold load_ch, read_ch_sized. destruct (notices_header _ _ _ Eh) as (n & Hn & _ & H1 & H2). destruct (decide (room < n)) as [Hk|Hk].
  - by rewrite H2.
  - rewrite H1 by lia. cbn [andthen]. rewrite decide_True; [done|]. rewrite expected_exact by (try done; by rewrite Ew). rewrite (header_object o c Ho Hc). cbn [h_nodes h_fwd h_bwd].
    rewrite <- Hs. rewrite take_length, Nat.min_l by lia. unfold save_ch in Hr. lia.
Qed.
Print Assumptions C86_load_ch.
(** So a hierarchy that is loaded is the one that was saved, whatever happened to the device. *)
Theorem C86_ch : forall room pushes pad o c r file o', length pad = 4 -> ch_object o c -> ch_fits c -> (numbers_in c < 2 ^ 32)%N ->
  save_ch_file room pushes true pad o = (r, Some file) -> load_ch file = Some (Ret o') -> ch_object o' c.
Proof.
  intros room pushes pad o c r file o' Hp Ho Hc Hw Es El. destruct (C86_save_ch_partial room pushes true pad o) as (r' & E & _). rewrite E in Es. injection Es as <- <-.
  destruct (decide (room < length (save_ch pad o))) as [Hr|Hr].
  - rewrite (C86_load_ch room pad o c) in El by done. done.
  - unfold stored in El. rewrite take_ge in El by lia. destruct (C33_file pad o c Hp Ho Hc Hw) as (o2 & E2 & H2). rewrite E2 in El. injection El as <-. done.
Qed.
Print Assumptions C86_ch.

(** ** Loading from a device that can not read everything *)
(** If everything can be read, the functions are those of C40 and C33. *)
Theorem C86_read_all : forall avail file, length file <= avail ->
  (forall A sz (dec : list N -> A), load_vector_file sz dec avail file = load_vector sz dec file) /\
  (forall garbage, length garbage = 8 -> load_bits_file garbage avail file = load_bits garbage file) /\
  load_strings_file avail file = Ret (load_strings file) /\ load_ch_file avail file = load_ch file.
Proof.
  intros avail file H. assert (forall A sz (dec : list N -> A), load_vector_file sz dec avail file = load_vector sz dec file) as Hv.
  { intros A sz dec. unfold load_vector_file, load_vector. rewrite is_read_all by (try done; apply replicate_length). done. }
  split; [done|]. split; [|split].
  - intros garbage Hg. unfold load_bits_file, load_bits. cbv zeta.
    assert (is_read avail file garbage = take 8 file ++ drop (length (take 8 file)) garbage) as ->. { unfold is_read. cbv zeta. rewrite (take_ge file avail) by done. by rewrite Hg. }
    case_decide as Hd; [done|]. do 4 f_equal. set (q := (_ / 512)%N) in *. clearbody q. apply is_read_all; [rewrite drop_length; lia|]. rewrite replicate_length, drop_length. lia.
  - unfold load_strings_file. rewrite Hv. unfold load_vector. rewrite Nat.mod_1_r. rewrite decide_False by lia. unfold load_strings. do 2 f_equal. rewrite Nat.div_1_r.
    clear. induction file as [|b file IH]; cbn [length groups fmap list_fmap]; [done|]. f_equal. exact IH.
  - unfold load_ch_file, load_ch. by rewrite (take_ge file) by done.
Qed.
Print Assumptions C86_read_all.
(** Vectors: the elements that could be read are right. *)
Theorem C86_read_vector_partial {A} : forall sz (dec : list N -> A) avail file v i, 0 < sz -> load_vector_file sz dec avail file = Ret v ->
  length v = length file / sz /\ ((i + 1) * sz <= avail -> i < length v -> v !! i = Some (dec (take sz (drop (i * sz) file)))).
Proof.
  intros sz dec avail file v i Hs. unfold load_vector_file. case_decide as Hd; [done|]. intros [= <-].
  rewrite fmap_length, groups_length. split; [done|]. intros Ha Hi. rewrite list_lookup_fmap, groups_lookup by done. cbn [fmap option_fmap option_map]. do 2 f_equal.
  assert ((i + 1) * sz <= length file) as Hf by (pose proof (Nat.mul_div_le (length file) sz ltac:(lia)); nia).
  rewrite !firstn_skipn_comm. f_equal. apply is_read_got; rewrite ?replicate_length; lia.
Qed.
Print Assumptions C86_read_vector_partial.
(** Hierarchies: throws if anything could not be read. *)
Theorem C86_read_ch : forall avail pad o c, length pad = 4 -> ch_object o c -> ch_fits c -> (numbers_in c < 2 ^ 32)%N ->
  avail < length (save_ch pad o) -> load_ch_file avail (save_ch pad o) = Some Throw.
Proof.
  intros avail pad o c Hp Ho Hc Hw Ha. destruct (fits_header o c Ho Hc) as [H32 Ew].
  assert (exists o', read_ch_sized (save_ch pad o) (N.of_nat (length (save_ch pad o))) = Some (Ret (o', []))) as (o' & E).
  { unfold save_ch, read_ch_sized.
    rewrite (write_size pad o c) by done. rewrite write_ch_bytes, read_header_app by done. cbn [andthen].
    rewrite decide_False. 2:{ rewrite expected_exact by (try done; by rewrite Ew). rewrite (header_object o c Ho Hc). cbn [h_nodes h_fwd h_bwd]. intros H. by apply H. }
    destruct (finish_read_app o c [] Ho Hc) as (o' & E & _). rewrite !app_nil_r in E. rewrite E. eauto. }
  destruct (notices_sized (N.of_nat (length (save_ch pad o))) _ _ _ E) as (n & Hn & Hd & _ & H2). unfold load_ch_file. rewrite H2; [done|].
  apply (f_equal length) in Hd. rewrite drop_length, nil_length in Hd. lia.
Qed.
Print Assumptions C86_read_ch.

(** ** Losses that are not reported *)
(** A vector is saved and loaded without an exception, and is another one then; the same with strings. *)
Theorem C86_vector_refuted : exists room pushes (v v' : list N) file, v' <> v /\ Forall (fun w => w < 256 ^ N.of_nat 4)%N v /\
  save_vector_file room pushes (le_bytes 4) true v = (Ret tt, Some file) /\ load_vector 4 le_word file = Ret v'.
Proof. exists 8, (fun _ => 100), [7; 8; 9]%N, [7; 8]%N. eexists. split; [done|]. split; [repeat constructor|]. split; [reflexivity|reflexivity]. Qed.
Print Assumptions C86_vector_refuted.
Theorem C86_strings_refuted : exists room pushes v v' file, v' <> v /\ Forall (fun s => 0%N ∉ s) v /\
  save_strings_file room pushes true v = (Ret tt, Some file) /\ load_strings file = v'.
Proof.
  exists 4, (fun _ => 100), [[97]; [98; 99]]%N, [[97]]%N. eexists. split; [done|]. split; [|split; reflexivity].
  repeat constructor; set_solver.
Qed.
Print Assumptions C86_strings_refuted.
(** Strings are not saved anywhere if the file can not be opened. *)
Theorem C86_strings_open_refuted : exists room pushes v, v <> [] /\ save_strings_file room pushes false v = (Ret tt, None).
Proof. exists 100, (fun _ => 100), [[97]]%N. done. Qed.
Print Assumptions C86_strings_open_refuted.
(** Even write_vector and save_file do not notice the loss of bytes that are still in the buffer of the stream. *)
Theorem C86_stream_refuted : exists room pushes v, lost room (save_vector (le_bytes 4) v) /\
  open_file_for_saving room true (write_vector_os room pushes (le_bytes 4) v) = (Ret tt, Some []).
Proof. exists 0, (fun _ => 0), [7; 8; 9]%N. split; [unfold lost; cbn; lia|reflexivity]. Qed.
Print Assumptions C86_stream_refuted.
Theorem C86_save_ch_refuted : exists room pushes pad o c, length pad = 4 /\ ch_object o c /\ ch_fits c /\ lost room (save_ch pad o) /\
  exists file, save_ch_file room pushes true pad o = (Ret tt, Some file) /\ load_ch file = Some Throw.
Proof.
  destruct C33_ex as (Hf & Ho & _ & Hl & _ & _ & _ & Hx). exists 471, (fun _ => 0), [1;2;3;4]%N, ex_obj, ex_ch.
  split; [exact eq_refl|]. split; [exact Ho|]. split; [exact Hf|]. split; [unfold lost; rewrite Hl; clear; lia|].
  clear Hl. destruct (C86_save_ch_partial 471 (fun _ => 0) true [1;2;3;4]%N ex_obj) as (r & E & _). assert (r = Ret tt) as ->.
  { apply (f_equal fst) in E. cbn [fst] in E. rewrite <- E. vm_compute. reflexivity. }
  eexists. split; [exact E|]. exact Hx.
Qed.
Print Assumptions C86_save_ch_refuted.
(** A vector or a bit vector is read without an exception, and zeros stand for what could not be read. *)
Theorem C86_read_vector_refuted : exists avail (v v' : list N), v' <> v /\ Forall (fun w => w < 256 ^ N.of_nat 4)%N v /\
  load_vector_file 4 le_word avail (save_vector (le_bytes 4) v) = Ret v'.
Proof. exists 9, [7; 8; 1000]%N, [7; 8; 232]%N. split; [done|]. split; [repeat constructor|]. reflexivity. Qed.
Print Assumptions C86_read_vector_refuted.
Theorem C86_read_bits_refuted : exists avail v r, bv_new 3 true = Some v /\ load_bits_file (replicate 8 0%N) avail (save_bits v) = Ret r /\
  bv_is_set v 1 = Some true /\ bv_is_set (loaded r) 1 = Some false.
Proof. exists 8. eexists _, _. split; [vm_compute; reflexivity|]. split; [vm_compute; reflexivity|]. split; reflexivity. Qed.
Print Assumptions C86_read_bits_refuted.

(** Non-trivial inputs. *)
Example C86_ex : let pushes := fun i => if decide (i = 0) then 2 else 9 in
  image 4 (le_bytes 4) le_word (fun w => w < 256 ^ N.of_nat 4)%N /\
  save_vector_file 6 pushes (le_bytes 4) true [7; 8; 9]%N = (Ret tt, Some [7; 0; 0; 0; 8; 0]%N) /\ load_vector 4 le_word [7; 0; 0; 0; 8; 0]%N = Throw /\
  open_file_for_saving 6 true (step (write_value_os 6 pushes (le_bytes 4) 7%N) (write_vector_os 6 pushes (le_bytes 4) [8; 9]%N)) = (Throw, Some [7; 0; 0; 0; 8; 0]%N) /\
  open_file_for_saving 12 true (step (write_value_os 12 pushes (le_bytes 4) 7%N) (write_vector_os 12 pushes (le_bytes 4) [8; 9]%N)) = (Ret tt, Some [7; 0; 0; 0; 8; 0; 0; 0; 9; 0; 0; 0]%N) /\
  save_strings_file 4 pushes true [[97]; [98; 99]]%N = (Ret tt, Some [97; 0; 98; 99]%N) /\ complete_strings [[97]; [98; 99]]%N 4 1.
Proof.
  cbv zeta. split; [apply C40_unsigned; lia|]. split_and!; try reflexivity. unfold complete_strings, text_size. cbn. lia.
Qed.
Example C86_ex_ch : length [1;2;3;4]%N = 4 /\ ch_object ex_obj ex_ch /\ ch_fits ex_ch /\ (numbers_in ex_ch < 2 ^ 32)%N /\ lost 100 (save_ch [1;2;3;4]%N ex_obj) /\
  fst (save_ch_file 100 (fun _ => 1000) true [1;2;3;4]%N ex_obj) = Throw /\ fst (save_ch_file 472 (fun i => 3 * i) true [1;2;3;4]%N ex_obj) = Ret tt /\
  load_ch_file 300 (save_ch [1;2;3;4]%N ex_obj) = Some Throw.
Proof.
  destruct C33_ex as (Hf & Ho & Hn & Hl & _). split; [exact eq_refl|]. split; [exact Ho|]. split; [exact Hf|]. rewrite Hn. split; [clear; done|]. split; [unfold lost; rewrite Hl; clear; lia|].
  clear.
  split_and!; vm_compute; reflexivity.
Qed.
Example C86_ex_bits : exists v, bv_new 600 true = Some v /\ bv_rep v (replicate 600 true) /\ 135 < length (save_bits v) /\ load_bits (replicate 8 9%N) (stored 135 (save_bits v)) = Throw.
Proof.
  destruct (new_spec 600 true) as (v & E & Hv & _).
  exists v. split; [exact E|]. split; [exact Hv|].
  assert (v = default bv_empty (bv_new 600 true)) as -> by (by rewrite E). clear. split; [apply (bool_decide_unpack _); vm_compute; exact I|vm_compute; reflexivity].
Qed.
