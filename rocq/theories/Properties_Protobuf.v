(** C35 and C36: the protobuf decoder. *)
From Verif Require Import Base ProtobufModel ProtobufSpec ProtobufProofs.

(** * C35 *)
(** Every 64-bit value is read back from its shortest encoding, and exactly the encoding is
    consumed. *)
Theorem C35_encode : forall v rest, (v < 2 ^ 64)%N -> decode_varint (encode v ++ rest) = Some (Ret (v, rest)).
Proof. intros v rest H. apply decode_read, varint_of_read, encode_spec, H. Qed.
Print Assumptions C35_encode.
(** The same for every other encoding of the value with at most ten bytes. *)
Theorem C35_decode : forall c v rest, varint_of c v -> decode_varint (c ++ rest) = Some (Ret (v, rest)).
Proof. intros c v rest H. by apply decode_read, varint_of_read. Qed.
Print Assumptions C35_decode.
(** What the function does on any bytes: it returns the value modulo 2^64 of a varint of at most
    ten bytes, or throws and there is no such varint, or is undefined on an overlong one. *)
Theorem C35_any_bytes : forall bs, Forall byte bs ->
  (exists c v rest, bs = c ++ rest /\ varint_read c v /\ decode_varint bs = Some (Ret (v, rest))) \/
  (decode_varint bs = Some Throw /\ forall c v rest, bs = c ++ rest -> ~ varint_read c v) \/
  (decode_varint bs = None /\ overlong bs).
Proof. exact decode_cases. Qed.
Print Assumptions C35_any_bytes.
(** In particular values of up to nine bytes and unterminated strings are handled as documented. *)
Theorem C35_rejects : forall bs, Forall byte bs -> Forall cont bs -> length bs <= 10 -> decode_varint bs = Some Throw.
Proof. intros bs _ H Hl. apply (loop_end bs 0 0 H); [lia|done]. Qed.
Print Assumptions C35_rejects.
(** Not every encoding that exceeds 64 bits is rejected: the tenth byte is cut off … *)
Theorem C35_too_large_refuted : exists bs v, Forall byte bs /\ terminated bs /\ (2 ^ 64 <= base128 bs)%N /\ decode_varint bs = Some (Ret (v, [])) /\ v <> base128 bs.
Proof.
  exists (replicate 9 255%N ++ [127%N]), (2 ^ 64 - 1)%N. split; [repeat constructor|]. split.
  - exists (replicate 9 255%N), 127%N. split; [done|]. split; [apply Forall_replicate; unfold cont; lia|done].
  - split; [vm_compute; discriminate|]. split; [vm_compute; reflexivity|vm_compute; discriminate].
Qed.
Print Assumptions C35_too_large_refuted.
(** … and a longer one leads to a shift by 70 bits. *)
Theorem C35_undefined_refuted : exists bs, Forall byte bs /\ decode_varint bs = None.
Proof. exists (replicate 9 128%N ++ [129; 0]%N). split; [repeat constructor|vm_compute; reflexivity]. Qed.
Print Assumptions C35_undefined_refuted.

(** zigzag: a bijection between 64-bit integers and 64-bit numbers. *)
Theorem C35_zigzag : (forall z, zigzag (zigzag_encode z) = z) /\ (forall x, zigzag_encode (zigzag x) = x) /\
  (forall z, (- 2 ^ 63 <= z < 2 ^ 63)%Z <-> (zigzag_encode z < 2 ^ 64)%N).
Proof. split; [exact zigzag_inverse|]. split; [exact zigzag_encode_inverse|exact zigzag_encode_range]. Qed.
Print Assumptions C35_zigzag.
(** No intermediate value of zigzag overflows: both halves are below 2^63. *)
Theorem C35_zigzag_no_overflow : forall x, (x < 2 ^ 64)%N -> (Z.of_N (N.shiftr x 1) < 2 ^ 63)%Z /\ (- 2 ^ 63 <= zigzag x < 2 ^ 63)%Z.
Proof.
  intros x H. split.
  - rewrite N.shiftr_div_pow2. change (2 ^ 1)%N with 2%N. assert (x / 2 < 2 ^ 63)%N by (apply N.div_lt_upper_bound; [lia|done]). lia.
  - apply zigzag_encode_range. by rewrite zigzag_encode_inverse.
Qed.
Print Assumptions C35_zigzag_no_overflow.
Example C35_ex : encode 300 = [172; 2]%N /\ decode_varint [172; 2; 7]%N = Some (Ret (300, [7])%N) /\ length (encode (2 ^ 64 - 1)) = 10 /\
  decode_varint (encode (2 ^ 64 - 1)) = Some (Ret (2 ^ 64 - 1, [])%N) /\ zigzag (2 ^ 64 - 1) = (- 2 ^ 63)%Z /\ zigzag_encode (-3) = 5%N.
Proof. vm_compute. auto 10. Qed.

(** * C36 *)
(** A message in the wire format is reported field by field. *)
Theorem C36_complete : forall bs es, message varint_of bs es -> walk bs = Some (es, true).
Proof. intros bs es H. apply walk_complete; [done|]. by apply (message_mono varint_of), H; intros; apply varint_of_read. Qed.
Print Assumptions C36_complete.
(** On any bytes the calls made are the fields of the longest prefix that is a message (with the
    lenient reading of varints); the function returns iff that is everything, throws iff no field
    follows, and is undefined only if an overlong varint follows. It always terminates. *)
Theorem C36_any_bytes : forall bs, Forall byte bs ->
  exists pre es rest, bs = pre ++ rest /\ message varint_read pre es /\
   ((rest = [] /\ walk bs = Some (es, true)) \/
    (rest <> [] /\ (forall f e r, rest = f ++ r -> ~ field varint_read f e) /\ walk bs = Some (es, false)) \/
    (late_overlong rest /\ walk bs = None)).
Proof. intros bs H. by apply walk_cases. Qed.
Print Assumptions C36_any_bytes.
(** Memory safety fails through the overlong varint (the shift by 70). *)
Theorem C36_undefined_refuted : exists bs, Forall byte bs /\ walk bs = None.
Proof. exists (replicate 9 128%N ++ [129; 0]%N). split; [repeat constructor|vm_compute; reflexivity]. Qed.
Print Assumptions C36_undefined_refuted.
Definition C36_message : list N := [8; 172; 2; 18; 3; 97; 98; 99; 29; 1; 2; 3; 4; 33; 1; 2; 3; 4; 5; 6; 7; 8; 160; 6; 0]%N.
Definition C36_events : list event := [EVarint 1 300; EString 2 [97; 98; 99]; EFloat 3 [1; 2; 3; 4]; EDouble 4 [1; 2; 3; 4; 5; 6; 7; 8]; EVarint 100 0]%N.
Lemma C36_byte b v : (b < 128)%N -> b = v -> varint_of [b] v.
Proof. intros H <-. split; [by exists [], b|]. split; [cbn; lia|]. cbn. rewrite N.mod_small by done. split; lia. Qed.
Example C36_ex : message varint_of C36_message C36_events /\ walk C36_message = Some (C36_events, true) /\
  walk (take 20 C36_message) = Some (take 3 C36_events, false) /\ walk [8; 1; 11; 0]%N = Some ([EVarint 1 1], false)%N.
Proof.
  split; [|vm_compute; auto].
  assert (C36_message = (([8] ++ encode 300) ++ ([18] ++ [3] ++ [97; 98; 99]) ++ ([29] ++ [1; 2; 3; 4]) ++ ([33] ++ [1; 2; 3; 4; 5; 6; 7; 8]) ++ (encode 800 ++ [0]) ++ [])%N) as -> by (vm_compute; reflexivity).
  unfold C36_events. repeat apply message_cons; [| | | | |apply message_nil].
  - apply field_varint; [by apply C36_byte|by apply encode_spec].
  - apply field_string; by apply C36_byte.
  - apply field_float; [by apply C36_byte|done].
  - apply field_double; [by apply C36_byte|done].
  - apply field_varint; [by apply encode_spec|by apply C36_byte].
Qed.
