(** C88: floating point numbers in protobuf messages.

    Full statement (false by the letter of the standard): a message leads to calls with the numbers that were written into it. *)
From Coq Require Import ZArith Reals.
From Flocq Require Import IEEE754.Binary IEEE754.Bits.
From Verif Require Import Base VectorIoModel ProtobufModel ProtobufSpec ProtobufProofs Properties_Protobuf FloatModel ProtobufFloatModel ProtobufFloatSpec ProtobufFloatProofs.
Ltac Zify.zify_post_hook ::= idtac.

(** On machines that read numbers from any address: doubles arrive as they are, bit for bit, floats as doubles of the same value, whatever
    else is in the message. *)
Theorem C88_message_partial : forall first fs, Forall vfield_ok fs ->
  exists cs, decode_message false first (concat (wire <$> fs)) = Some (cs, true) /\ Forall2 says fs cs.
Proof.
  intros first fs H. exists (map event_call (field_event <$> fs)). unfold decode_message. rewrite walk_calls_loose.
  pose proof (C36_complete _ _ (wire_message fs H)) as E. unfold walk in E. rewrite E, bind_S. split; [done|].
  clear. induction fs as [|f fs IH]; cbn; constructor; [apply wire_says|done].
Qed.
Print Assumptions C88_message_partial.
(** Otherwise the same holds for messages whose numbers are aligned, and all others are undefined. *)
Theorem C88_aligned_partial : forall first fs, Forall vfield_ok fs -> aligned first fs ->
  exists cs, decode_message true first (concat (wire <$> fs)) = Some (cs, true) /\ Forall2 says fs cs.
Proof.
  intros first fs H Ha. exists (map event_call (field_event <$> fs)). split; [by apply (strict_fields fs first _ H)|].
  clear. induction fs as [|f fs IH]; cbn; constructor; [apply wire_says|done].
Qed.
Print Assumptions C88_aligned_partial.
Theorem C88_unaligned : forall first fs, Forall vfield_ok fs -> ~ aligned first fs -> decode_message true first (concat (wire <$> fs)) = None.
Proof. intros first fs H Ha. by apply (strict_fields fs first _ H). Qed.
Print Assumptions C88_unaligned.
(** On any bytes the walk is that of C36. *)
Theorem C88_any_bytes : forall first bs, exists tr, decode_message false first bs = (p ← walk bs; Some (map tr (fst p), snd p)) /\
  (forall id v, tr (EVarint id v) = CallVarint id v) /\ (forall id s, tr (EString id s) = CallString id s) /\
  (forall id d, exists x, tr (EDouble id d) = CallDouble id x) /\ (forall id d, exists x, tr (EFloat id d) = CallDouble id x).
Proof. intros first bs. exists event_call. split; [apply walk_calls_loose|]. split_and!; cbn; eauto. Qed.
Print Assumptions C88_any_bytes.

(** Two doubles in a row: wherever the message lies, one of them is not aligned. *)
Definition C88_one : binary64 := to_double 1.
Theorem C88_alignment_refuted : exists fs, Forall vfield_ok fs /\ forall first, decode_message true first (concat (wire <$> fs)) = None.
Proof.
  exists [VDouble 1 C88_one; VDouble 2 C88_one]. split; [repeat constructor|]. intros first. apply C88_unaligned; [repeat constructor|].
  cbn [aligned]. intros (H1 & H2 & _).
  assert (forall id, (id < 10)%N -> length (wire (VDouble id C88_one)) = 9) as Hw.
  { intros id Hid. cbn [wire]. rewrite app_length. unfold encode. cbn [encode_loop]. rewrite decide_True by lia.
    rewrite (proj1 (bytes_double_of C88_one)). done. }
  rewrite !Hw in H1, H2 by done. rewrite Hw in H2 by done. replace (first + 9 - 8) with (first + 1) in H1 by lia. replace (first + 9 + 9 - 8) with ((first + 1) + 1 + 1 * 8) in H2 by lia.
  rewrite Nat.mod_add in H2 by lia. rewrite Nat.add_mod in H2 by lia. rewrite H1 in H2. cbn in H2. lia.
Qed.
Print Assumptions C88_alignment_refuted.

(** Non-trivial messages: the double -5, a string and the float 0.000001, the first at address 8. *)
Definition C88_fields : list vfield := [VDouble 1 (to_double (-5)); VString 2 [97]%N; VFloat 3 (micro_float 1); VVarint 4 300].
Definition C88_bits (c : call) : N * Z := match c with CallVarint id v => (id, Z.of_N v) | CallDouble id x => (id, bits_of_b64 x) | CallString id s => (id, Z.of_nat (length s)) end.
Example C88_ex : Forall vfield_ok C88_fields /\ aligned 7 C88_fields /\ ~ aligned 8 C88_fields /\
  concat (wire <$> C88_fields) = [9; 0; 0; 0; 0; 0; 0; 20; 192; 18; 1; 97; 29; 189; 55; 134; 53; 32; 172; 2]%N /\
  (p ← decode_message true 7 (concat (wire <$> C88_fields)); Some (map C88_bits (fst p), snd p)) =
    Some ([(1%N, bits_of_b64 (to_double (-5))); (2%N, 1%Z); (3%N, 4517329193096183808%Z); (4%N, 300%Z)], true).
Proof.
  split; [repeat constructor|]. 
  assert (length (wire (VDouble 1 (to_double (-5)))) = 9) as E1 by (vm_compute; reflexivity). assert (length (wire (VString 2 [97]%N)) = 3) as E2 by (vm_compute; reflexivity).
  assert (length (wire (VFloat 3 (micro_float 1))) = 5) as E3 by (vm_compute; reflexivity).
  split; [|split; [|split]].
  - unfold C88_fields. cbn [aligned]. rewrite E1, E2, E3. done.
  - unfold C88_fields. cbn [aligned]. rewrite E1. intros [H _]. cbn in H. lia.
  - vm_compute. reflexivity.
  - vm_compute. reflexivity.
Qed.
