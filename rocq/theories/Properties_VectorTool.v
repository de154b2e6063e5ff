(** C62: encode_vector and decode_vector convert between text and binary vectors.
    C63: compare_vector says how two vectors differ. *)
From Verif Require Import Base ProtobufModel VectorIoModel VectorIoProofs TextModel TextSpec TextProofs VectorToolModel VectorToolSpec VectorToolProofs VectorToolCompareProofs.
From Coq Require String. Import String.StringSyntax.
Ltac Zify.zify_post_hook ::= idtac.

(** ** C62 *)
(** encode_vector, for all integer types but uint64: it succeeds exactly if every line starts with a number of the type, and then writes the bytes of these numbers. *)
Theorem C62_encode t lines input file :
  std_type t -> t <> uint64 -> lines_of lines input ->
  encode_ints t input = Ret file <-> exists xs, Forall2 line_number lines xs /\ Forall (in_type t) xs /\ int_file (i_bytes t) xs file.
Proof.
  intros Ht Hu Hl. rewrite <- (getlines_spec _ _ Hl). apply (encode_ints_spec t (i_count t / 2)).
  - by apply type_facts_std.
  - revert Ht. unfold std_type. rewrite !elem_of_cons. intros [-> |[-> |[-> |[-> |[-> |[-> |[-> |[-> |H]]]]]]]]; [cbn; lia..|by apply elem_of_nil in H].
  - intros [H8 Hs]. apply Hu. destruct t as [k s]. cbn in *. by subst.
Qed.
Print Assumptions C62_encode.
Example C62_encode_example :
  let input := (text "12" ++ [10%N] ++ text " -32768 and text" ++ [10%N] ++ text "+007")%list in
  encode_ints int16 input = Ret [12; 0; 0; 128; 7; 0]%N /\ encode_ints uint16 input = Throw /\ encode_ints int16 (text "32768") = Throw /\ encode_ints int16 (text "x") = Throw /\
  lines_of [text "12"; text " -32768 and text"; text "+007"] input.
Proof.
  split_and!; [vm_compute; reflexivity..|]. split.
  - repeat constructor; apply (bool_decide_unpack _); vm_compute; exact I.
  - right. exists [text "12"; text " -32768 and text"], (text "+007"). done.
Qed.
(** For uint64 negative numbers are accepted too; what is written is the number modulo 2^64. *)
Theorem C62_encode_uint64_partial lines input file :
  lines_of lines input ->
  encode_ints uint64 input = Ret file <-> exists xs, Forall2 line_number lines xs /\ Forall (fun x => - 2 ^ 64 < x < 2 ^ 64)%Z xs /\ int_file 8 xs file.
Proof. intros Hl. rewrite <- (getlines_spec _ _ Hl). apply encode_uint64_spec. Qed.
Print Assumptions C62_encode_uint64_partial.
(** Hence the statement of [C62_encode] is false for uint64: the line "-1" is not refused. *)
Theorem C62_encode_uint64_refuted :
  exists lines input file, lines_of lines input /\ encode_ints uint64 input = Ret file /\ ~ exists xs, Forall2 line_number lines xs /\ Forall (in_type uint64) xs /\ int_file 8 xs file.
Proof.
  exists [text "-1"], (text "-1"), (replicate 8 255%N). split_and!.
  - split; [repeat constructor; apply (bool_decide_unpack _); vm_compute; exact I|]. right. by exists [], (text "-1").
  - vm_compute. reflexivity.
  - intros (xs & H & Hx & _). inversion H as [|? x ? ? Hl]; subst. apply Forall_cons in Hx as [Hx _].
    assert (line_number (text "-1") (-1)) as Hm. { exists [], (text "-1"), []. split_and!; [done|constructor| |done]. apply (sn_minus [49%N] 1). by apply (numeral_digit 1). }
    rewrite (line_number_unique _ _ _ Hl Hm) in Hx. by destruct Hx.
Qed.
Print Assumptions C62_encode_uint64_refuted.
(** decode_vector prints one number per line, for types of at least two bytes. *)
Theorem C62_decode_partial t xs file :
  std_type t -> i_bytes t <> 1 -> int_file (i_bytes t) xs file -> Forall (in_type t) xs ->
  exists out lines, decode_ints t file = Ret out /\ lines_of lines out /\ Forall2 signed_numeral lines xs.
Proof.
  intros Ht H1 Hf Hx. destruct (decode_ints_spec t (i_count t / 2) xs file) as (out & lines & E & -> & HF); [by apply type_facts_std|done| |done|done|].
  - clear -Ht. revert Ht. unfold std_type. rewrite !elem_of_cons. intros [-> |[-> |[-> |[-> |[-> |[-> |[-> |[-> |H]]]]]]]]; [cbn; lia..|by apply elem_of_nil in H].
  - eexists _, lines. split; [done|]. split; [|done]. split; [|by left]. clear -HF. induction HF; constructor; [by eapply signed_numeral_no_newline|done].
Qed.
Print Assumptions C62_decode_partial.
Example C62_decode_example :
  decode_ints int16 [12; 0; 0; 128; 255; 255]%N = Ret (text "12" ++ [10%N] ++ text "-32768" ++ [10%N] ++ text "-1" ++ [10%N])%list /\
  decode_ints uint16 [12; 0; 0; 128]%N = Ret (text "12" ++ [10%N] ++ text "32768" ++ [10%N])%list /\ decode_ints int16 [12; 0; 0]%N = Throw.
Proof. split_and!; vm_compute; reflexivity. Qed.
(** Decoding and encoding again gives the same file. *)
Theorem C62_round_trip_partial t xs file :
  std_type t -> i_bytes t <> 1 -> int_file (i_bytes t) xs file -> Forall (in_type t) xs ->
  exists out, decode_ints t file = Ret out /\ encode_ints t out = Ret file.
Proof.
  intros Ht H1 Hf Hx. destruct (C62_decode_partial t xs file Ht H1 Hf Hx) as (out & lines & E & Hl & HF). exists out. split; [done|].
  assert (Forall2 line_number lines xs) as HL by (eapply Forall2_impl; [exact HF|]; intros ? ?; apply signed_line).
  destruct (decide (i_bytes t = 8 /\ i_signed t = false)) as [[H8 Hs]|Hu].
  - assert (t = uint64) as -> by (destruct t as [k s]; cbn in *; by subst). apply (C62_encode_uint64_partial lines out file Hl). exists xs. split_and!; [done| |done].
    eapply Forall_impl; [exact Hx|]. intros x Hin. change (0 <= x < 2 ^ 64)%Z in Hin. lia.
  - apply (C62_encode t lines out file Ht); [intros ->; by apply Hu|done|]. by exists xs.
Qed.
Print Assumptions C62_round_trip_partial.
Example C62_round_trip_example : int_file 2 [12; -2]%Z [12; 0; 254; 255]%N /\ Forall (in_type int16) [12; -2]%Z.
Proof.
  split.
  - exists [[12; 0]; [254; 255]]%N. split; [done|]. repeat constructor; done.
  - repeat constructor; done.
Qed.
(** For the types of one byte the numbers are printed as characters: the file with the number 7 becomes the bell character, which encode_vector refuses; and the digit 5
    comes back as the number 5 instead of 53. *)
Theorem C62_int8_refuted :
  exists file1 file2 out1 out2, int_file 1 [7]%Z file1 /\ int_file 1 [53]%Z file2 /\ Forall (in_type int8) [7; 53]%Z /\
    decode_ints int8 file1 = Ret out1 /\ encode_ints int8 out1 = Throw /\ decode_ints int8 file2 = Ret out2 /\ encode_ints int8 out2 = Ret [5]%N /\ file2 <> [5]%N.
Proof.
  exists [7]%N, [53]%N. eexists _, _. split_and!; [..|vm_compute; reflexivity|vm_compute; reflexivity|vm_compute; reflexivity|vm_compute; reflexivity|done].
  - exists [[7%N]]. split; [done|]. repeat constructor; done.
  - exists [[53%N]]. split; [done|]. repeat constructor; done.
  - repeat constructor; done.
Qed.
Print Assumptions C62_int8_refuted.
(** The replacement of substrings. *)
Theorem C62_replace subject search replace t :
  search <> [] -> replace_all_substrings subject search replace = Some t <-> replaced search replace subject t.
Proof.
  intros Hs. split; [|by apply replace_all_eq]. destruct (replace_all_spec search replace subject Hs) as (t' & E & H). rewrite E. by intros [= <-].
Qed.
Print Assumptions C62_replace.
Example C62_replace_example : replace_all_substrings (text "aaabaa") (text "aa") (text "xa") = Some (text "xaabxa").
Proof. vm_compute. reflexivity. Qed.
(** decode_vector prints every string, escaped, on a line of its own. *)
Theorem C62_decode_strings v :
  Forall (fun s => 0%N ∉ s) v ->
  exists out lines, decode_strings (save_strings v) = Some out /\ lines_of lines out /\ Forall2 escaped v lines.
Proof.
  intros H0. destruct (decode_strings_spec v H0) as (lines & E & HF). eexists _, lines. split; [exact E|]. split; [|done]. split; [|by left].
  clear -HF. induction HF; constructor; [by eapply escaped_no_newline|done].
Qed.
Print Assumptions C62_decode_strings.
(** Decoding and encoding again gives the same strings exactly if none of them contains a backslash followed by the letter n. *)
Theorem C62_strings_partial v :
  Forall (fun s => 0%N ∉ s) v ->
  exists out file, decode_strings (save_strings v) = Some out /\ encode_strings out = Some file /\
    (file = save_strings v <-> Forall (fun s => ~ contains (text "\n") s) v).
Proof. exact (encode_decode_strings v). Qed.
Print Assumptions C62_strings_partial.
Example C62_strings_example :
  let v := [text "a\\b" ++ [10%N] ++ text "n\"; []; text "\" ++ [10%N]]%list in
  decode_strings (save_strings v) = Some (text "a\\\\b\nn\\" ++ [10%N] ++ [10%N] ++ text "\\\n" ++ [10%N])%list /\
  (out ← decode_strings (save_strings v); encode_strings out) = Some (save_strings v).
Proof. split; vm_compute; reflexivity. Qed.
(** The string "C:\new" comes back with a newline in it. *)
Theorem C62_strings_refuted :
  exists v out file, Forall (fun s => 0%N ∉ s) v /\ decode_strings (save_strings v) = Some out /\ encode_strings out = Some file /\ file = save_strings [text "C:" ++ [10%N] ++ text "ew"]%list /\ file <> save_strings v.
Proof.
  exists [text "C:\new"]. eexists _, _. split_and!.
  - repeat constructor; apply (bool_decide_unpack _); vm_compute; exact I.
  - vm_compute. reflexivity.
  - vm_compute. reflexivity.
  - vm_compute. reflexivity.
  - vm_compute. discriminate.
Qed.
Print Assumptions C62_strings_refuted.

(** ** C63 *)
Theorem C63_compare_ints t v1 v2 file1 file2 :
  std_type t -> int_file (i_bytes t) v1 file1 -> int_file (i_bytes t) v2 file2 -> Forall (in_type t) v1 -> Forall (in_type t) v2 ->
  exists r, compare_ints t file1 file2 = Ret (Some r) /\ describes Z.lt v1 v2 r.
Proof.
  intros Ht%type_facts_std H1 H2 X1 X2. unfold compare_ints. rewrite (load_int_file _ _ _ _ Ht H1 X1), (load_int_file _ _ _ _ Ht H2 X2).
  destruct (compare_values_spec Z.ltb Z.eqb id v1 v2) as (r & E & H); [done|]. rewrite E. rewrite !list_fmap_id in H. by exists r.
Qed.
Print Assumptions C63_compare_ints.
Example C63_compare_ints_example :
  let f := save_vector (enc_int int16) in
  compare_ints int16 (f [1; 5; -3; 7]%Z) (f [1; 4; 3; 6]%Z) = Ret (Some (Differ 1 2 1 3 4 (Some 1))) /\
  compare_ints int16 (f [1; 5; -3; 7]%Z) (f [1; 5; -3; 7]%Z) = Ret (Some (Same 4)) /\ compare_ints int16 (f [1]%Z) (f [1; 2]%Z) = Ret (Some (FirstShorter 1 2)).
Proof. split_and!; vm_compute; reflexivity. Qed.
Theorem C63_compare_strings v1 v2 :
  Forall (fun s => 0%N ∉ s) v1 -> Forall (fun s => 0%N ∉ s) v2 ->
  exists r, compare_strings (save_strings v1) (save_strings v2) = Some r /\ describes (fun _ _ => False) v1 v2 r.
Proof. intros H1 H2. unfold compare_strings. rewrite (load_save_strings _ H1), (load_save_strings _ H2). apply compare_string_values_spec. Qed.
Print Assumptions C63_compare_strings.
Example C63_compare_strings_example : compare_strings (save_strings [text "a"; text "b"; []]) (save_strings [text "a"; text "c"; []]) = Some (DifferStrings 2 1 3).
Proof. vm_compute. reflexivity. Qed.
(** For float, if all values are numbers. Positive and negative zero are equal. *)
Theorem C63_compare_floats_partial v1 v2 :
  Forall is_number v1 -> Forall is_number v2 ->
  exists r, compare_floats (save_vector (le_bytes 4) v1) (save_vector (le_bytes 4) v2) = Ret (Some r) /\ describes Z.lt (float_value <$> v1) (float_value <$> v2) r.
Proof.
  intros H1 H2. unfold compare_floats.
  assert (forall v, Forall is_number v -> load_vector 4 le_word (save_vector (le_bytes 4) v) = Ret v) as Hload.
  { intros v Hv. unfold load_vector, save_vector. assert (forall x, x ∈ v -> length (le_bytes 4 x) = 4) as Hl by (intros; apply le_bytes_length).
    rewrite (concat_length 4 _ _ Hl). rewrite Nat.mod_mul by lia. rewrite decide_False by lia. rewrite Nat.div_mul by lia. f_equal.
    rewrite <- (app_nil_r (concat _)). rewrite groups_concat by done. rewrite <- list_fmap_compose. rewrite <- (list_fmap_id v) at 2. apply list_fmap_ext. intros i x Hi.
    apply le_word_bytes. rewrite Forall_forall in Hv. destruct (Hv x) as [Hx _]; [by eapply elem_of_list_lookup_2|]. exact Hx. }
  rewrite (Hload _ H1), (Hload _ H2). rewrite Forall_forall in H1, H2.
  destruct (compare_values_spec float_lt float_eq float_value v1 v2) as (r & E & H).
  - intros x y Hx Hy. destruct (float_order x y (H1 _ Hx) (H2 _ Hy)). destruct (float_order y x (H2 _ Hy) (H1 _ Hx)). done.
  - rewrite E. by exists r.
Qed.
Print Assumptions C63_compare_floats_partial.
(** 1.0, -2.5 and -0.0 compared to 1.0, -2.0 and 0.0; the numbers are 2^149, -5 * 2^148 and 0 times 2^-149. *)
Example C63_compare_floats_example :
  compare_floats (save_vector (le_bytes 4) [1065353216; 3223322624; 2147483648]%N) (save_vector (le_bytes 4) [1065353216; 3221225472; 0]%N) = Ret (Some (Differ 1 0 2 1 3 (Some 1))) /\
  map float_value [1065353216; 3223322624; 2147483648]%N = [2 ^ 149; -5 * 2 ^ 148; 0]%Z /\ forallb (fun b => (b <? 2 ^ 32) && (b mod 2 ^ 31 <=? 2 ^ 31 - 2 ^ 23))%N [1065353216; 3223322624; 2147483648]%N = true.
Proof. split_and!; vm_compute; reflexivity. Qed.
(** A vector with NaN (2143289344 is a quiet NaN) instead of 1.0 is reported to be the same. *)
Theorem C63_compare_floats_refuted :
  exists v1 v2 n, compare_floats (save_vector (le_bytes 4) v1) (save_vector (le_bytes 4) v2) = Ret (Some (Same n)) /\ v1 <> v2 /\ ~ Forall is_number v1 /\ Forall is_number v2.
Proof.
  exists [1065353216; 2143289344]%N, [1065353216; 1065353216]%N, 2. split_and!.
  - vm_compute. reflexivity.
  - done.
  - intros H. apply Forall_cons in H as [_ H]. apply Forall_cons in H as [[_ H] _]. by vm_compute in H.
  - repeat constructor; done.
Qed.
Print Assumptions C63_compare_floats_refuted.
