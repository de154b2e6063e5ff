(** Streams that fail. *)
From Verif Require Import Base ProtobufModel BitVectorModel BitVectorSpec PermutationModel VectorIoModel VectorIoProofs ChFileModel VectorFailSpec VectorFailModel.
Ltac Zify.zify_post_hook ::= idtac.

(** ** Writing *)
Section device.
  Context (room : nat) (pushes : nat -> nat).
  (** [T]: all bytes that were given to the stream *)
  Definition os_inv (T : list N) (s : ostr) : Prop :=
    (os_bad s = false /\ os_file s ++ os_buf s = T /\ length (os_file s) <= room /\ ((forall i, length T <= pushes i) -> os_buf s = [])) \/
    (os_bad s = true /\ os_file s = take room T /\ room < length T).
  Lemma opened_inv : os_inv [] os_opened.
  Proof. left. cbn. split_and!; try done. lia. Qed.
  Lemma take_more (T bs : list N) : room < length T -> take room (T ++ bs) = take room T.
  Proof. intros H. rewrite take_app_le by lia. done. Qed.
  Lemma bad_more T bs s : os_bad s = true -> os_inv T s -> os_inv (T ++ bs) s.
  Proof.
    intros Hb [(Hb' & _)|(_ & Hf & Hl)]; [congruence|]. right. split; [done|]. split; [by rewrite take_more|]. rewrite app_length. lia.
  Qed.
  Lemma write_inv T bs s : os_inv T s -> os_inv (T ++ bs) (os_write room pushes bs s).
  Proof.
    intros H. unfold os_write. destruct (os_bad s) eqn:Eb; [by apply bad_more|].
    destruct H as [(_ & <- & Hl & Hu)|(Hb & _)]; [|congruence]. cbv zeta. set (k := pushes (os_calls s)).
    assert ((os_file s ++ take k (os_buf s ++ bs)) ++ drop k (os_buf s ++ bs) = (os_file s ++ os_buf s) ++ bs) as E.
    { rewrite <- !app_assoc. by rewrite take_drop. }
    destruct (decide (room < length (os_file s ++ take k (os_buf s ++ bs)))) as [Hr|Hr].
    - right. cbn [os_bad os_file]. rewrite bool_decide_eq_true_2 by done. rewrite <- E. split; [done|]. split; [symmetry; by apply take_more|]. rewrite app_length. lia.
    - left. cbn [os_bad os_file os_buf]. rewrite bool_decide_eq_false_2 by done. rewrite take_ge by lia. split_and!; [done|done|lia|].
      intros Hi. apply drop_ge. specialize (Hi (os_calls s)). fold k in Hi. rewrite !app_length in Hi. rewrite app_length. lia.
  Qed.
  Lemma close_inv T s : os_inv T s -> os_close room s = take room T.
  Proof.
    intros [(_ & <- & _)|(_ & Hf & Hl)]; [done|]. unfold os_close. rewrite Hf. rewrite take_app_le by (rewrite take_length; lia).
    rewrite take_take. f_equal. lia.
  Qed.
  Lemma not_lost T s : os_inv T s -> length T <= room -> os_bad s = false.
  Proof. intros [(H & _)|(_ & _ & H)]; [done|lia]. Qed.
  Lemma unbuffered_bad T s : os_inv T s -> (forall i, length T <= pushes i) -> os_bad s = true <-> room < length T.
  Proof.
    intros [(H & <- & Hl & Hu)|(H & _ & Hr)] Hi; [|done]. rewrite H. split; [done|]. rewrite app_length, (Hu Hi). cbn. lia.
  Qed.

  (** ** Programs that test the stream after each call *)
  Definition os_writes (p : ostr -> result unit * ostr) (bs : list N) : Prop :=
    forall T s, os_bad s = false -> os_inv T s -> os_inv (T ++ bs) (snd (p s)) /\ (fst (p s) = if os_bad (snd (p s)) then Throw else Ret tt).
  Lemma checked_writes bs : os_writes (checked_write room pushes bs) bs.
  Proof. intros T s Hb Hs. unfold checked_write. cbn [fst snd]. split; [by apply write_inv|done]. Qed.
  Lemma step_writes p q bs cs : os_writes p bs -> os_writes q cs -> os_writes (step p q) (bs ++ cs).
  Proof.
    intros Hp Hq T s Hb Hs. destruct (Hp T s Hb Hs) as [Hi Hr]. unfold step. destruct (p s) as [r s']. cbn [fst snd] in *. rewrite app_assoc.
    destruct (os_bad s') eqn:Eb; subst r; cbn [fst snd].
    - rewrite Eb. split; [|done]. by apply bad_more.
    - by apply Hq.
  Qed.
  Lemma saved_writes p bs : os_writes p bs -> exists r, open_file_for_saving room true p = (r, Some (take room bs)) /\
    (length bs <= room -> r = Ret tt) /\ ((forall i, length bs <= pushes i) -> r = Throw <-> room < length bs).
  Proof.
    intros Hp. destruct (Hp [] os_opened eq_refl opened_inv) as [Hi Hr]. unfold open_file_for_saving. destruct (p os_opened) as [r s]. cbn [fst snd app] in *.
    exists r. rewrite (close_inv _ _ Hi). split; [done|]. split.
    - intros H. rewrite (not_lost _ _ Hi H) in Hr. done.
    - intros H. rewrite <- (unbuffered_bad _ _ Hi H). rewrite Hr. by destruct (os_bad s).
  Qed.
  Lemma write_ch_writes pad o : os_writes (write_ch_os room pushes pad o) (save_ch pad o).
  Proof.
    unfold save_ch, write_ch. cbv zeta. unfold write_side, VectorIoModel.write_value, VectorIoModel.write_vector, write_bits. cbn [app]. rewrite <- !app_assoc.
    unfold write_ch_os. cbv zeta. apply step_writes; [apply checked_writes|]. apply step_writes; [apply checked_writes|].
    rewrite !(app_assoc _ _ (_ ++ _)). unfold write_side_os.
    rewrite <- !app_assoc. 
    match goal with |- os_writes (step _ ?q) (?a ++ ?b ++ ?c ++ ?d ++ ?e ++ ?f ++ ?g) => replace (a ++ b ++ c ++ d ++ e ++ f ++ g) with ((a ++ b ++ c ++ d ++ e ++ f) ++ g) by by rewrite <- !app_assoc end.
    apply step_writes; repeat first [apply step_writes|apply checked_writes].
  Qed.
  Lemma strings_inv v T s : os_inv T s -> os_inv (T ++ save_strings v) (fold_left (fun s x => os_write room pushes (x ++ [0%N]) s) v s).
  Proof.
    revert T s. induction v as [|x v IH]; intros T s Hs; cbn [fold_left].
    - unfold save_strings. cbn. by rewrite app_nil_r.
    - change (save_strings (x :: v)) with ((x ++ [0%N]) ++ save_strings v). rewrite app_assoc. apply IH. by apply write_inv.
  Qed.
End device.

(** ** Loading the beginning of a file *)
Lemma take_concat {A} sz (enc : A -> list N) v q : (forall x, x ∈ v -> length (enc x) = sz) -> take (q * sz) (concat (enc <$> v)) = concat (enc <$> take q v).
Proof.
  revert q. induction v as [|x v IH]; intros q Hl.
  - rewrite !take_nil. cbn. by rewrite take_nil.
  - destruct q as [|q]; [done|]. cbn [fmap list_fmap concat take]. assert (length (enc x) = sz) as Hx by (apply Hl; constructor).
    rewrite take_app_ge by (rewrite Hx; lia). f_equal. rewrite Hx. replace (S q * sz - sz) with (q * sz) by lia. apply IH. intros y Hy. apply Hl. by constructor.
Qed.
Lemma split_no_zero s cur : 0%N ∉ s -> split_strings s cur = [].
Proof.
  revert cur. induction s as [|b s IH]; intros cur H; cbn; [done|]. apply not_elem_of_cons in H as [H1 H2]. rewrite decide_False by congruence. by apply IH.
Qed.
Lemma split_first s rest cur : 0%N ∉ s -> split_strings (s ++ 0%N :: rest) cur = (cur ++ s) :: split_strings rest [].
Proof.
  revert cur. induction s as [|b s IH]; intros cur H; cbn [app split_strings].
  - rewrite decide_True by done. by rewrite app_nil_r.
  - apply not_elem_of_cons in H as [H1 H2]. rewrite decide_False by congruence. rewrite IH by done. by rewrite <- app_assoc.
Qed.
Lemma strings_prefix v room : Forall (fun s => 0%N ∉ s) v -> exists k, complete_strings v room k /\ load_strings (take room (save_strings v)) = take k v.
Proof.
  revert room. induction v as [|s v IH]; intros room Hv.
  - exists 0. unfold complete_strings, text_size. cbn. rewrite take_nil. split_and!; try done; lia.
  - apply Forall_cons in Hv as [Hs Hv]. change (save_strings (s :: v)) with ((s ++ [0%N]) ++ save_strings v). destruct (decide (room < S (length s))) as [Hr|Hr].
    + exists 0. split.
      * unfold complete_strings, text_size. cbn. split_and!; lia.
      * rewrite take_app_le by (rewrite app_length; cbn; lia). rewrite take_app_le by lia. apply split_no_zero. intros H. apply Hs.
        eapply elem_of_submseteq; [exact H|]. apply sublist_submseteq, sublist_take.
    + destruct (IH (room - S (length s)) Hv) as (k & (H1 & H2 & H3) & E). exists (S k). split.
      * unfold complete_strings, text_size in *. cbn in *. split_and!; lia.
      * rewrite take_app_ge by (rewrite app_length; cbn; lia). unfold load_strings in *. rewrite <- app_assoc. cbn [app].
        rewrite split_first by done. cbn [app take]. f_equal. rewrite <- E. do 2 f_equal. rewrite app_length. cbn. lia.
Qed.

(** ** Readers that notice the end of the stream *)
Definition notices {A} (R : list N -> option (result (A * list N))) : Prop :=
  forall inp x rest, R inp = Some (Ret (x, rest)) -> exists n, n <= length inp /\ rest = drop n inp /\
    (forall k, n <= k -> R (take k inp) = Some (Ret (x, drop n (take k inp)))) /\ (forall k, k < n -> R (take k inp) = Some Throw).
Lemma notices_ret {A} (x : A) : notices (fun inp => Some (Ret (x, inp))).
Proof. intros inp y rest [= <- <-]. exists 0. split_and!; try done; lia. Qed.
Lemma notices_none {A} : notices (fun _ => None : option (result (A * list N))).
Proof. intros inp x rest H. done. Qed.
Lemma notices_throw {A} : notices (fun _ => Some Throw : option (result (A * list N))).
Proof. intros inp x rest H. done. Qed.
Lemma notices_bind {A B} (R : list N -> option (result (A * list N))) (K : A -> list N -> option (result (B * list N))) :
  notices R -> (forall x, notices (K x)) -> notices (fun inp => andthen (R inp) (fun '(x, inp) => K x inp)).
Proof.
  intros HR HK inp y rest H. destruct (R inp) as [[[x i2]|]|] eqn:E; cbn [andthen] in H; try done.
  destruct (HR _ _ _ E) as (n & Hn & -> & H1 & H2). destruct (HK x _ _ _ H) as (m & Hm & -> & H3 & H4). rewrite drop_length in Hm.
  exists (n + m). split; [lia|]. split; [by rewrite drop_drop|]. split.
  - intros k Hk. rewrite H1 by lia. cbn [andthen]. rewrite skipn_firstn_comm. rewrite H3 by lia. do 3 f_equal. rewrite <- skipn_firstn_comm, drop_drop. done.
  - intros k Hk. destruct (decide (k < n)) as [Hkn|Hkn]; [by rewrite H2|]. rewrite H1 by lia. cbn [andthen]. rewrite skipn_firstn_comm. apply H4. lia.
Qed.
Lemma notices_bytes {A} n (f : list N -> A) : notices (fun inp => Some (match read_bytes n inp with Ret (bs, inp) => Ret (f bs, inp) | Throw => Throw end)).
Proof.
  intros inp x rest. unfold read_bytes. case_decide as Hd; [done|]. intros [= <- <-]. exists n. split; [lia|]. split; [done|]. split.
  - intros k Hk. rewrite decide_False by (rewrite take_length; lia). rewrite take_take. replace (n `min` k) with n by lia. done.
  - intros k Hk. rewrite decide_True by (rewrite take_length; lia). done.
Qed.
Lemma notices_ids n : notices (read_ids n).
Proof. apply (notices_bytes (4 * N.to_nat n) (fun bs => dec_id <$> groups (N.to_nat n) 4 bs)). Qed.
Lemma notices_words n : notices (read_words n).
Proof. apply (notices_bytes (4 * N.to_nat n) (fun bs => le_word <$> groups (N.to_nat n) 4 bs)). Qed.
Lemma notices_flags n : notices (read_flags n).
Proof. apply (notices_bytes ((N.to_nat n + 511) / 512 * 64) (fun bs => loaded (N.of_nat (N.to_nat n), le_word <$> groups ((N.to_nat n + 511) / 512 * 8) 8 bs))). Qed.
Lemma notices_side nodes arcs : notices (read_side nodes arcs).
Proof.
  apply notices_bind; [apply notices_ids|intros fo]. apply notices_bind; [apply notices_ids|intros hd]. apply notices_bind; [apply notices_words|intros w].
  apply notices_bind; [apply notices_flags|intros og]. apply notices_bind; [apply notices_ids|intros f]. apply notices_bind; [apply notices_ids|intros g]. apply notices_ret.
Qed.
Lemma notices_finish h : notices (finish_read h).
Proof.
  apply (notices_bind _ (fun rank inp => match invert_permutation rank with None => None | Some order => _ end)); [apply notices_ids|intros rank].
  destruct (invert_permutation rank) as [order|]; [|apply notices_none].
  apply notices_bind; [apply notices_side|intros f]. apply notices_bind; [apply notices_side|intros b]. apply notices_ret.
Qed.
Lemma notices_header : notices read_header.
Proof.
  apply notices_bind; [apply (notices_bytes 24 dec_header)|intros h]. case_decide; [apply notices_throw|apply notices_ret].
Qed.
Lemma notices_read_ch : notices read_ch.
Proof. apply notices_bind; [apply notices_header|apply notices_finish]. Qed.
Lemma notices_sized size : notices (fun inp => read_ch_sized inp size).
Proof. apply notices_bind; [apply notices_header|intros h]. case_decide; [apply notices_throw|apply notices_finish]. Qed.

(** ** Reading from a file *)
Lemma is_read_all avail file old : length file <= avail -> length old = length file -> is_read avail file old = file.
Proof. intros H1 H2. unfold is_read. cbv zeta. rewrite (take_ge file) by lia. rewrite (take_ge file) by lia. rewrite drop_ge by lia. apply app_nil_r. Qed.
Lemma is_read_length avail file old : length (is_read avail file old) = length old.
Proof. unfold is_read. cbv zeta. rewrite app_length, drop_length, !take_length. lia. Qed.
Lemma is_read_got avail file old n : n <= avail -> n <= length old -> n <= length file -> take n (is_read avail file old) = take n file.
Proof. intros H1 H2 H3. unfold is_read. cbv zeta. rewrite take_app_le by (rewrite !take_length; lia). rewrite !take_take. f_equal. lia. Qed.
Lemma groups_lookup n sz bs i : i < n -> groups n sz bs !! i = Some (take sz (drop (i * sz) bs)).
Proof.
  revert bs i. induction n as [|n IH]; intros bs i H; [lia|]. cbn [groups]. destruct i as [|i]; [done|]. cbn [lookup list_lookup]. 
  change (groups n sz (drop sz bs) !! i = Some (take sz (drop (S i * sz) bs))). rewrite IH by lia. rewrite drop_drop. do 3 f_equal.
Qed.
