(** Round trips of vector files. *)
From Verif Require Import Base ProtobufModel BitVectorModel BitVectorSpec BitVectorProofs VectorIoModel.
Ltac Zify.zify_post_hook ::= Z.div_mod_to_equations.

Lemma le_bytes_length k w : length (le_bytes k w) = k.
Proof. revert w. induction k as [|k IH]; intros w; cbn; [done|]. by rewrite IH. Qed.
Lemma le_word_bytes k w : (w < 256 ^ N.of_nat k)%N -> le_word (le_bytes k w) = w.
Proof.
  revert w. induction k as [|k IH]; intros w H; cbn [le_bytes le_word]; [cbn in H; lia|]. rewrite IH; [lia|].
  rewrite Nat2N.inj_succ, N.pow_succ_r' in H. set (p := (256 ^ N.of_nat k)%N) in *. clearbody p. clear IH. apply N.div_lt_upper_bound; lia.
Qed.
Lemma le_bytes_byte k w : Forall (fun b => b < 256)%N (le_bytes k w).
Proof. revert w. induction k as [|k IH]; intros w; cbn; constructor; [|done]. apply N.mod_lt. done. Qed.
Lemma le_bytes_word bs : Forall (fun b => b < 256)%N bs -> le_bytes (length bs) (le_word bs) = bs.
Proof.
  induction bs as [|b bs IH]; intros H; cbn [le_word length le_bytes]; [done|]. apply Forall_cons in H as [Hb H].
  replace ((b + 256 * le_word bs) mod 256)%N with b by lia. replace ((b + 256 * le_word bs) / 256)%N with (le_word bs) by lia. by rewrite IH.
Qed.
Lemma le_word_lt bs : Forall (fun b => b < 256)%N bs -> (le_word bs < 256 ^ N.of_nat (length bs))%N.
Proof.
  induction bs as [|b bs IH]; intros H; cbn [le_word length]; [done|]. apply Forall_cons in H as [Hb H]. specialize (IH H).
  rewrite Nat2N.inj_succ, N.pow_succ_r'. lia.
Qed.

Lemma groups_length n sz bs : length (groups n sz bs) = n.
Proof. revert bs. induction n as [|n IH]; intros bs; cbn; [done|]. by rewrite IH. Qed.
Lemma groups_concat {A} sz (enc : A -> list N) v rest : (forall x, x ∈ v -> length (enc x) = sz) -> groups (length v) sz (concat (enc <$> v) ++ rest) = enc <$> v.
Proof.
  induction v as [|x v IH]; intros Hl; cbn [length groups fmap list_fmap concat]; [done|]. rewrite <- app_assoc.
  assert (length (enc x) = sz) as Hx by (apply Hl; constructor). rewrite take_app_alt, drop_app_alt by done. f_equal. apply IH. intros y Hy. apply Hl. by constructor.
Qed.
Lemma groups_all n sz bs : length bs = n * sz -> concat (groups n sz bs) = bs.
Proof.
  revert bs. induction n as [|n IH]; intros bs H; cbn [groups concat].
  - by destruct bs.
  - rewrite IH by (rewrite drop_length; lia). apply take_drop.
Qed.
Lemma groups_each n sz bs : length bs = n * sz -> Forall (fun g => length g = sz) (groups n sz bs).
Proof.
  revert bs. induction n as [|n IH]; intros bs H; cbn [groups]; constructor.
  - rewrite take_length. lia.
  - apply IH. rewrite drop_length. lia.
Qed.
Lemma groups_bytes n sz bs : Forall (fun b => b < 256)%N bs -> Forall (Forall (fun b => b < 256)%N) (groups n sz bs).
Proof. revert bs. induction n as [|n IH]; intros bs H; cbn [groups]; constructor; [by apply Forall_take|]. apply IH. by apply Forall_drop. Qed.
Lemma concat_length {A} sz (enc : A -> list N) v : (forall x, x ∈ v -> length (enc x) = sz) -> length (concat (enc <$> v)) = length v * sz.
Proof.
  induction v as [|x v IH]; intros Hl; cbn [fmap list_fmap concat length]; [done|]. rewrite app_length. rewrite (Hl x) by constructor.
  cut (length (concat (enc <$> v)) = length v * sz); [lia|]. apply IH. intros y Hy. apply Hl. by constructor.
Qed.

Lemma split_strings_spec v cur : Forall (fun s => 0%N ∉ s) v -> 0%N ∉ cur -> split_strings (save_strings v) cur = match v with [] => [] | s :: v => (cur ++ s) :: v end.
Proof.
  intros Hv. destruct v as [|s v]; [done|]. revert s cur Hv. induction v as [|s' v IH]; intros s cur Hv Hc.
  - unfold save_strings. cbn [fmap list_fmap concat]. rewrite app_nil_r. apply Forall_cons in Hv as [Hs _]. revert cur Hc. induction s as [|b s IHs]; intros cur Hc; cbn [app split_strings].
    + rewrite decide_True by done. by rewrite app_nil_r.
    + rewrite decide_False by (intros ->; apply Hs; constructor). rewrite IHs; [by rewrite <- app_assoc| |].
      * intros H. apply Hs. by constructor.
      * intros [H|H]%elem_of_app; [done|]. apply elem_of_list_singleton in H as <-. apply Hs. constructor.
  - apply Forall_cons in Hv as [Hs Hv]. change (save_strings (s :: s' :: v)) with ((s ++ [0%N]) ++ save_strings (s' :: v)). revert cur Hc.
    induction s as [|b s IHs]; intros cur Hc; cbn [app split_strings].
    + rewrite decide_True by done. rewrite IH; [by rewrite app_nil_r|done|by intros ?%elem_of_nil].
    + rewrite decide_False by (intros ->; apply Hs; constructor). rewrite IHs; [by rewrite <- app_assoc| |].
      * intros H. apply Hs. by constructor.
      * intros [H|H]%elem_of_app; [done|]. apply elem_of_list_singleton in H as <-. apply Hs. constructor.
Qed.

(** The bit vector written by [save_bits]. *)
Lemma words_groups d : words d -> forall rest, le_word <$> groups (length d) 8 (concat (le_bytes 8 <$> d) ++ rest) = d.
Proof.
  intros Hw rest. rewrite groups_concat by (intros; apply le_bytes_length). rewrite <- list_fmap_compose. rewrite <- (list_fmap_id d) at 2.
  apply list_fmap_ext. intros i x Hx. change (le_word (le_bytes 8 x) = x). apply le_word_bytes. change (256 ^ N.of_nat 8)%N with (2 ^ 64)%N. unfold words in Hw. rewrite Forall_forall in Hw. apply Hw. by eapply elem_of_list_lookup_2.
Qed.
