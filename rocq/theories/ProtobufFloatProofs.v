(** Floating point numbers in messages. *)
From Coq Require Import ZArith Reals Lra.
From Flocq Require Import Core IEEE754.Binary IEEE754.Bits.
From Verif Require Import Base VectorIoModel VectorIoProofs ProtobufModel ProtobufSpec ProtobufProofs FloatModel FloatProofs ProtobufFloatModel ProtobufFloatSpec.
Ltac Zify.zify_post_hook ::= idtac.

(** ** Conversions *)
Lemma bytes_double_of x : length (le_bytes 8 (Z.to_N (bits_of_b64 x))) = 8%nat /\ bytes_double (le_bytes 8 (Z.to_N (bits_of_b64 x))) = x.
Proof.
  split; [apply le_bytes_length|]. unfold bytes_double. pose proof (bits_of_binary_float_range 52 11 eq_refl eq_refl x) as Hr. change (52 + 11 + 1)%Z with 64%Z in Hr.
  fold (bits_of_b64 x) in Hr. rewrite le_word_bytes.
  - rewrite Z2N.id by lia. unfold b64_of_bits. apply (binary_float_of_bits_of_binary_float 52 11).
  - change (256 ^ N.of_nat 8)%N with (Z.to_N (2 ^ 64)). lia.
Qed.
Lemma format_32_64 (y : binary32) : generic_format radix2 (FLT_exp (3 - 1024 - 53) 53) (B2R 24 128 y).
Proof.
  pose proof (generic_format_B2R 24 128 y) as H. apply FLT_format_generic in H; [|done]. destruct H as [f E1 E2 E3]. rewrite E1. apply generic_format_FLT. exists f; [done| |].
  - eapply Z.lt_le_trans; [exact E2|]. done.
  - eapply Z.le_trans; [|exact E3]. done.
Qed.
Lemma widen_same y : same_number y (widen y).
Proof.
  unfold same_number. destruct y as [s|s|s p Hp|s m e He]; [repeat split| repeat split| |].
  { split; [done|]. split; [done|]. split; [done|]. cbn. done. }
  { pose proof (format_32_64 (B754_finite 24 128 s m e He)) as Hf. pose proof (abs_B2R_lt_emax 24 128 (B754_finite 24 128 s m e He)) as Hlt.
    unfold widen. set (b := binary_normalize 53 1024 eq_refl eq_refl BinarySingleNaN.mode_NE (cond_Zopp s (Z.pos m)) e s).
    pose proof (binary_normalize_correct 53 1024 eq_refl eq_refl BinarySingleNaN.mode_NE (cond_Zopp s (Z.pos m)) e s) as H. fold b in H.
    change (F2R (Float radix2 (cond_Zopp s (Z.pos m)) e)) with (B2R 24 128 (B754_finite 24 128 s m e He)) in H.
    rewrite round_generic in H by (try apply BinarySingleNaN.valid_rnd_round_mode; exact Hf).
    rewrite Rlt_bool_true in H.
    2:{ eapply Rlt_le_trans; [exact Hlt|]. apply bpow_le. done. }
    destruct H as (H1 & H2 & H3). split_and!.
    + destruct b; done.
    + exact H2.
    + exact H1.
    + intros _. rewrite H3. cbn [Bsign].
      destruct s; cbn [cond_Zopp] in *.
      * rewrite Rcompare_Lt; [done|]. apply F2R_lt_0. done.
      * rewrite Rcompare_Gt; [done|]. apply F2R_gt_0. done. }
Qed.

(** ** The walk *)
Definition event_call (e : event) : call :=
  match e with
  | EVarint id v => CallVarint id v
  | EDouble id d => CallDouble id (bytes_double d)
  | EFloat id d => CallDouble id (widen (bytes_float d))
  | EString id s => CallString id s
  end.
Lemma walk_calls_loose last fuel bs : walk_calls false last fuel bs = (p ← walk_loop fuel bs; Some (map event_call (fst p), snd p)).
Proof.
  revert bs. induction fuel as [|fuel IH]; intros bs; [by destruct bs|]. cbn [walk_calls walk_loop]. destruct bs as [|b bs']; [done|].
  destruct (decode_varint (b :: bs')) as [[[h bs]|]|]; [|done|done]. rewrite !bind_S. cbn [negb orb chk].
  destruct (N.land h 7) as [|p]; [|destruct p as [p|p|]; [destruct p as [p|p|]; try done; destruct p as [p|p|]; try done|destruct p as [p|p|]; try done|]].
  - destruct (decode_varint bs) as [[[v bs2]|]|]; [|done|done]. rewrite !bind_S, IH. by destruct (walk_loop fuel bs2) as [[es ok]|].
  - case_decide; [done|]. rewrite bind_S, IH. by destruct (walk_loop fuel (drop 4 bs)) as [[es ok]|].
  - destruct (decode_varint bs) as [[[l bs2]|]|]; [|done|done]. rewrite !bind_S. case_decide; [done|]. rewrite IH. by destruct (walk_loop fuel _) as [[es ok]|].
  - case_decide; [done|]. rewrite bind_S, IH. by destruct (walk_loop fuel (drop 8 bs)) as [[es ok]|].
Qed.
Definition field_event (f : vfield) : event :=
  match f with
  | VVarint id v => EVarint id v
  | VDouble id x => EDouble id (le_bytes 8 (Z.to_N (bits_of_b64 x)))
  | VFloat id y => EFloat id (le_bytes 4 (Z.to_N (bits_of_b32 y)))
  | VString id s => EString id s
  end.
Lemma wire_field f : vfield_ok f -> field varint_of (wire f) (field_event f).
Proof.
  destruct f as [id v|id x|id y|id s]; cbn [vfield_ok wire field_event]; intros H.
  - apply field_varint; apply encode_spec; lia.
  - apply field_double; [apply encode_spec; lia|apply le_bytes_length].
  - apply field_float; [apply encode_spec; lia|apply le_bytes_length].
  - apply field_string; apply encode_spec; lia.
Qed.
Lemma wire_field' f : vfield_ok f -> field varint_read (wire f) (field_event f).
Proof.
  intros H. destruct (wire_field f H); constructor; try done; by apply varint_of_read.
Qed.
Lemma wire_says f : says f (event_call (field_event f)).
Proof.
  destruct f as [id v|id x|id y|id s]; cbn [says field_event event_call]; [done| | |done].
  - by rewrite (proj2 (bytes_double_of x)).
  - exists (widen y). pose proof (float_bytes_value y) as [_ E]. unfold float_bytes in E. rewrite E. split; [done|]. apply widen_same.
Qed.
Lemma wire_message fs : Forall vfield_ok fs -> message varint_of (concat (wire <$> fs)) (field_event <$> fs).
Proof. induction 1 as [|f fs Hf _ IH]; cbn; constructor; [by apply wire_field|done]. Qed.

(** One field with alignment. *)
Definition aligned_at (next : nat) (f : vfield) : bool :=
  match f with VDouble _ _ => bool_decide ((next - 8) mod 8 = 0)%nat | VFloat _ _ => bool_decide ((next - 4) mod 4 = 0)%nat | _ => true end.
Lemma decode_encode v rest : (v < 2 ^ 64)%N -> decode_varint (encode v ++ rest) = Some (Ret (v, rest)).
Proof. intros H. apply decode_read, varint_of_read. by apply encode_spec. Qed.
Lemma encode_nonempty v : encode v <> [].
Proof. unfold encode. cbn [encode_loop]. by case_decide. Qed.
Lemma header_of id t : (t < 8)%N -> N.shiftr (8 * id + t) 3 = id /\ N.land (8 * id + t) 7 = t.
Proof.
  intros H. rewrite header_id, header_type. rewrite (N.mul_comm 8), N.add_comm. rewrite N.div_add, N.mod_add by done. rewrite N.div_small, N.mod_small by done. done.
Qed.
Lemma strict_field last fuel f bs : vfield_ok f ->
  walk_calls true last (S fuel) (wire f ++ bs) =
    _ ← chk (aligned_at (last - length bs) f); '(cs, ok) ← walk_calls true last fuel bs; Some (event_call (field_event f) :: cs, ok).
Proof.
  intros Hf. destruct f as [id v|id x|id y|id s]; cbn [vfield_ok wire field_event event_call aligned_at] in *; rewrite <- !app_assoc; cbn [walk_calls].
  - match goal with |- context [encode ?h ++ ?r] => destruct (encode h ++ r) as [|z zs] eqn:E; [by destruct (encode_nonempty h), (encode h)|] end.
    rewrite <- E, decode_encode, bind_S by lia. clear E z zs. destruct (header_of id 0 ltac:(done)) as [E1 E2]. rewrite N.add_0_r in E1, E2. rewrite E1, E2.
    rewrite decode_encode, bind_S by lia. done.
  - match goal with |- context [encode ?h ++ ?r] => destruct (encode h ++ r) as [|z zs] eqn:E; [by destruct (encode_nonempty h), (encode h)|] end.
    rewrite <- E, decode_encode, bind_S by lia. clear E z zs. destruct (header_of id 1 ltac:(done)) as [E1 E2]. rewrite E1, E2.
    rewrite app_length, le_bytes_length. rewrite decide_False by lia. rewrite take_app_alt, drop_app_alt by (by rewrite le_bytes_length). cbn [negb orb].
    replace (last - (8 + length bs))%nat with (last - length bs - 8)%nat by lia. done.
  - match goal with |- context [encode ?h ++ ?r] => destruct (encode h ++ r) as [|z zs] eqn:E; [by destruct (encode_nonempty h), (encode h)|] end.
    rewrite <- E, decode_encode, bind_S by lia. clear E z zs. destruct (header_of id 5 ltac:(done)) as [E1 E2]. rewrite E1, E2.
    rewrite app_length, le_bytes_length. rewrite decide_False by lia. rewrite take_app_alt, drop_app_alt by (by rewrite le_bytes_length). cbn [negb orb].
    replace (last - (4 + length bs))%nat with (last - length bs - 4)%nat by lia. done.
  - match goal with |- context [encode ?h ++ ?r] => destruct (encode h ++ r) as [|z zs] eqn:E; [by destruct (encode_nonempty h), (encode h)|] end.
    rewrite <- E, decode_encode, bind_S by lia. clear E z zs. destruct (header_of id 2 ltac:(done)) as [E1 E2]. rewrite E1, E2.
    rewrite decode_encode, bind_S by lia. rewrite app_length. rewrite decide_False by lia. rewrite Nat2N.id, take_app_alt, drop_app_alt by done. done.
Qed.
Lemma strict_fields fs : forall addr fuel, Forall vfield_ok fs -> (length (concat (wire <$> fs)) <= fuel)%nat ->
  (aligned addr fs -> walk_calls true (addr + length (concat (wire <$> fs))) fuel (concat (wire <$> fs)) = Some (map event_call (field_event <$> fs), true)) /\
  (~ aligned addr fs -> walk_calls true (addr + length (concat (wire <$> fs))) fuel (concat (wire <$> fs)) = None).
Proof.
  induction fs as [|f fs IH]; intros addr fuel Hfs Hl.
  - cbn in *. destruct fuel; cbn; (split; [done|tauto]).
  - apply Forall_cons in Hfs as [Hf Hfs]. cbn [fmap list_fmap concat] in *. rewrite app_length in *.
    assert (0 < length (wire f))%nat as Hp. { pose proof (field_nonempty _ _ (wire_field' f Hf)). destruct (wire f); [done|cbn; lia]. }
    destruct fuel as [|fuel]; [lia|]. rewrite strict_field by done.
    destruct (IH (addr + length (wire f))%nat fuel Hfs ltac:(lia)) as [H1 H2].
    replace (addr + (length (wire f) + length (concat (wire <$> fs))))%nat with (addr + length (wire f) + length (concat (wire <$> fs)))%nat by lia.
    replace (addr + length (wire f) + length (concat (wire <$> fs)) - length (concat (wire <$> fs)))%nat with (addr + length (wire f))%nat by lia.
    set (next := (addr + length (wire f))%nat) in *.
    assert (aligned addr (f :: fs) <-> aligned_at next f = true /\ aligned next fs) as Ha.
    { cbn [aligned]. fold next. destruct f; cbn [aligned_at]; rewrite ?bool_decide_eq_true; tauto. }
    rewrite Ha. destruct (aligned_at next f); cbn [chk].
    + rewrite bind_S. split.
      * intros [_ H]. rewrite (H1 H). done.
      * intros H. rewrite H2; [done|]. tauto.
    + split; [by intros [? _]|done].
Qed.
