(** Proofs about the programs that encode and decode vectors. *)
From Verif Require Import Base ProtobufModel VectorIoModel VectorIoProofs TextModel TextSpec TextProofs VectorToolModel VectorToolSpec.
Ltac Zify.zify_post_hook ::= idtac.

(** ** Integers in memory *)
Lemma number_word bs : number bs = Z.of_N (le_word bs).
Proof. induction bs as [|b bs IH]; cbn [number le_word]; [done|]. rewrite IH. lia. Qed.
Record type_facts (t : itype) (h : Z) : Prop := {
  tf_count : i_count t = (2 * h)%Z;
  tf_pos : (0 < h)%Z;
  tf_max : (h <= 2 ^ 63)%Z;
  tf_bytes : 0 < i_bytes t;
  tf_in : forall x, in_type t x <-> (i_min t <= x <= i_max t)%Z;
  tf_lo : i_min t = (if i_signed t then - h else 0)%Z;
  tf_hi : i_max t = (if i_signed t then h - 1 else 2 * h - 1)%Z;
}.
Lemma type_facts_std t : std_type t -> type_facts t (i_count t / 2).
Proof.
  unfold std_type. rewrite !elem_of_cons. intros [-> |[-> |[-> |[-> |[-> |[-> |[-> |[-> |H]]]]]]]]; [..|by apply elem_of_nil in H];
    (split; [done|done|done|cbn; lia| |done|done]); intros x; unfold in_type; cbn [i_signed i_bytes int8 uint8 int16 uint16 int32 uint32 int64 uint64]; 
    match goal with |- context [i_min ?t] => let a := eval vm_compute in (i_min t) in let b := eval vm_compute in (i_max t) in change (i_min t) with a; change (i_max t) with b end;
    repeat match goal with |- context [(2 ^ ?e)%Z] => let a := eval vm_compute in (2 ^ e)%Z in change (2 ^ e)%Z with a end; lia.
Qed.
Lemma enc_int_represents t h x : type_facts t h -> represents (i_bytes t) (enc_int t x) x.
Proof.
  intros T. unfold enc_int. split; [apply le_bytes_length|]. split; [apply le_bytes_byte|]. rewrite number_word.
  assert (0 < i_count t)%Z as Hc by (rewrite (tf_count _ _ T); pose proof (tf_pos _ _ T); lia).
  pose proof (Z.mod_pos_bound x (i_count t) Hc) as Hm.
  rewrite le_word_bytes.
  - rewrite Z2N.id by lia. change (256 ^ Z.of_nat (i_bytes t))%Z with (i_count t). rewrite Zminus_mod_idemp_l, Z.sub_diag. by apply Z.mod_0_l; lia.
  - unfold i_count in *. apply N2Z.inj_lt. rewrite Z2N.id by lia. rewrite N2Z.inj_pow, nat_N_Z. change (Z.of_N 256) with 256%Z. lia.
Qed.
Lemma represents_mod k bs x : represents k bs x -> number bs = (x mod 256 ^ Z.of_nat k)%Z.
Proof.
  intros (Hl & Hb & He). pose proof (le_word_lt _ Hb) as Hlt. rewrite Hl in Hlt. apply N2Z.inj_lt in Hlt. rewrite N2Z.inj_pow, nat_N_Z in Hlt. change (Z.of_N 256) with 256%Z in Hlt.
  rewrite number_word in *. pose proof (N2Z.is_nonneg (le_word bs)) as H0. apply Z.mod_divide in He; [|lia]. destruct He as [q Hq].
  apply Z.mod_unique with (- q)%Z; [left; lia|]. lia.
Qed.
Lemma represents_enc t bs x : represents (i_bytes t) bs x -> bs = enc_int t x.
Proof.
  intros H. pose proof (represents_mod _ _ _ H) as Hm. destruct H as (Hl & Hb & _). unfold enc_int, i_count. rewrite <- Hm, number_word, N2Z.id, <- Hl. symmetry. by apply le_bytes_word.
Qed.
Lemma dec_int_represents t h bs x : type_facts t h -> represents (i_bytes t) bs x -> in_type t x -> dec_int t bs = x.
Proof.
  intros T Hr Hx. apply represents_mod in Hr. apply (tf_in _ _ T) in Hx. rewrite (tf_lo _ _ T), (tf_hi _ _ T) in Hx. change (256 ^ Z.of_nat (i_bytes t))%Z with (i_count t) in Hr.
  pose proof (tf_pos _ _ T) as Hp. unfold dec_int. rewrite <- number_word, Hr, (tf_count _ _ T). rewrite (Z.mul_comm 2 h), Z.div_mul by lia. rewrite (Z.mul_comm h 2).
  destruct (i_signed t) eqn:Es; cbn [andb].
  - destruct (decide (0 <= x)%Z) as [Hs|Hs].
    + rewrite Z.mod_small by lia. destruct (Z.leb_spec h x); lia.
    + replace (x mod (2 * h))%Z with (x + 2 * h)%Z by (apply Z.mod_unique with (-1)%Z; [left; lia|lia]). destruct (Z.leb_spec h (x + 2 * h)); lia.
  - rewrite Z.mod_small by lia. done.
Qed.
Lemma int_file_save t xs file : int_file (i_bytes t) xs file -> file = save_vector (enc_int t) xs.
Proof.
  intros (chunks & -> & HF). unfold save_vector. f_equal. induction HF as [|bs x chunks xs H _ IH]; [done|]. cbn [fmap list_fmap]. by rewrite (represents_enc _ _ _ H), IH.
Qed.
Lemma save_int_file t h xs : type_facts t h -> int_file (i_bytes t) xs (save_vector (enc_int t) xs).
Proof. intros T. exists (enc_int t <$> xs). split; [done|]. induction xs; constructor; [by eapply enc_int_represents|done]. Qed.
Lemma load_int_file t h xs file : type_facts t h -> int_file (i_bytes t) xs file -> Forall (in_type t) xs -> load_vector (i_bytes t) (dec_int t) file = Ret xs.
Proof.
  intros T Hf Hx. rewrite (int_file_save _ _ _ Hf). clear Hf. pose proof (tf_bytes _ _ T) as Hb. unfold load_vector, save_vector.
  assert (forall x, x ∈ xs -> length (enc_int t x) = i_bytes t) as Hl by (intros; apply le_bytes_length).
  rewrite (concat_length (i_bytes t) _ _ Hl). rewrite Nat.mod_mul by lia. rewrite decide_False by lia. rewrite Nat.div_mul by lia. f_equal.
  rewrite <- (app_nil_r (concat _)). rewrite groups_concat by done. rewrite <- list_fmap_compose. rewrite <- (list_fmap_id xs) at 2. apply list_fmap_ext. intros i x Hi.
  change (dec_int t (enc_int t x) = x). apply (dec_int_represents t h); [done|by eapply enc_int_represents|]. rewrite Forall_forall in Hx. apply Hx. by eapply elem_of_list_lookup_2.
Qed.

(** ** Numbers as text *)
Lemma is_space_white c : is_space c = true <-> white c.
Proof. unfold is_space, white. rewrite orb_true_iff, andb_true_iff, N.eqb_eq, !N.leb_le. done. Qed.
Lemma span_spec f l : exists a b, span f l = (a, b) /\ l = a ++ b /\ Forall (fun c => f c = true) a /\ stops f b.
Proof.
  induction l as [|c l (a & b & E & -> & Ha & Hb)]; cbn [span].
  - by exists [], [].
  - destruct (f c) eqn:Ec.
    + rewrite E. exists (c :: a), b. split_and!; [done..| |done]. by constructor.
    + exists [], (c :: a ++ b). split_and!; [done..|constructor|]. done.
Qed.
Lemma digits_numeral ds : ds <> [] -> Forall (fun c => is_digit c = true) ds -> numeral ds (digits_value ds).
Proof.
  induction ds as [|d ds IH] using rev_ind; [done|]. intros _ [Hds Hd]%Forall_app. apply Forall_cons in Hd as [Hd _]. apply is_digit_spec in Hd.
  replace d with (48 + (d - 48))%N at 1 by lia. rewrite digits_value_app. destruct ds as [|d' ds].
  - cbn. replace (10 * 0 + (d - 48))%N with (d - 48)%N by lia. constructor. lia.
  - apply numeral_more; [|lia]. by apply IH.
Qed.
Definition signed_value (p : bool * N) : Z := if p.1 then (- Z.of_N p.2)%Z else Z.of_N p.2.
Lemma read_number_some l p : read_number l = Some p -> line_number l (signed_value p).
Proof.
  unfold read_number, skip_spaces. destruct (span_spec is_space l) as (w & l1 & E1 & -> & Hw & _). rewrite E1. cbn [snd].
  assert (Forall white w) as Hw' by (eapply Forall_impl; [exact Hw|]; intros c; apply is_space_white).
  assert (forall neg s l2, l1 = s ++ l2 -> (neg = true /\ s = [45%N] \/ neg = false /\ s = [43%N] \/ neg = false /\ s = []) ->
    match fst (span is_digit l2) with [] => None | ds => Some (neg, digits_value ds) end = Some p -> line_number (w ++ l1) (signed_value p)) as Hmain.
  { intros neg s l2 -> Hs. destruct (span_spec is_digit l2) as (ds & rest & E2 & -> & Hd & Hr). rewrite E2. cbn [fst]. intros E.
    assert (ds <> [] /\ p = (neg, digits_value ds)) as [Hne ->] by (destruct ds; [done|]; split; [done|congruence]). clear E.
    pose proof (digits_numeral _ Hne Hd) as Hn. exists w, (s ++ ds), rest. split; [by rewrite !app_assoc|]. split; [done|]. split.
    - destruct Hs as [[-> ->]|[[-> ->]|[-> ->]]]; cbn; by constructor.
    - destruct rest as [|c rest]; [done|]. cbn [stops] in Hr. intros Hc. apply is_digit_spec in Hc. congruence. }
  destruct l1 as [|c l1]; [apply (Hmain false [] []); [done|]; right; right; done|].
  destruct (N.eqb_spec c 45) as [-> |_]; [apply (Hmain true [45%N]); [done|]; by left|].
  destruct (N.eqb_spec c 43) as [-> |_]; [apply (Hmain false [43%N]); [done|]; by right; left|].
  apply (Hmain false []); [done|]. by right; right.
Qed.
Lemma line_number_read l x : line_number l x -> exists p, read_number l = Some p /\ signed_value p = x.
Proof.
  intros (w & s & rest & -> & Hw & Hs & Hr).
  assert (Forall (fun c => is_space c = true) w) as Hw' by (eapply Forall_impl; [exact Hw|]; intros c; apply is_space_white).
  assert (stops is_digit rest) as Hst by (destruct rest as [|c rest]; [done|]; cbn; destruct (is_digit c) eqn:E; [|done]; by apply is_digit_spec in E).
  assert (forall ds v, numeral ds v -> match fst (span is_digit (ds ++ rest)) with [] => None | ds => Some (digits_value ds) end = Some v) as Hspan.
  { intros ds v Hn. destruct (numeral_value _ _ Hn) as (Hne & Hd & <-). rewrite (span_app _ _ _ Hd Hst). cbn. by destruct ds. }
  unfold read_number, skip_spaces. inversion Hs as [ds v Hn E1 E2|ds v Hn E1 E2|ds v Hn E1 E2]; subst s x.
  - destruct (numeral_value _ _ Hn) as (Hne & Hd & _). destruct ds as [|c ds]; [done|]. pose proof Hd as [Hc _]%Forall_cons.
    rewrite span_app; [|done|cbn; by apply digit_not_space]. cbn [snd app]. apply is_digit_spec in Hc. destruct (N.eqb_spec c 45); [lia|]. destruct (N.eqb_spec c 43); [lia|].
    specialize (Hspan _ _ Hn). cbn [app] in Hspan. cbv beta iota zeta. destruct (fst _); [done|]. injection Hspan as Hspan. rewrite Hspan. by eexists.
  - rewrite span_app by done. cbn [snd app]. change (43 =? 45)%N with false. change (43 =? 43)%N with true. cbv iota. specialize (Hspan _ _ Hn). cbv beta iota zeta. destruct (fst _); [done|]. injection Hspan as Hspan. rewrite Hspan. by eexists.
  - rewrite span_app by done. cbn [snd app]. change (45 =? 45)%N with true. cbv iota. specialize (Hspan _ _ Hn). cbv beta iota zeta. destruct (fst _); [done|]. injection Hspan as Hspan. rewrite Hspan. by eexists.
Qed.
Lemma line_number_unique l x y : line_number l x -> line_number l y -> x = y.
Proof. intros (p & E1 & <-)%line_number_read (q & E2 & <-)%line_number_read. congruence. Qed.
Lemma read_int_spec t h l x : type_facts t h -> ~ (i_bytes t = 8 /\ i_signed t = false) -> (i_bytes t <= 8) -> read_int t l = Ret x <-> line_number l x /\ in_type t x.
Proof.
  intros T Hu H8. rewrite (tf_in _ _ T).
  assert (- 2 ^ 63 <= i_min t /\ i_max t < 2 ^ 63)%Z as [Hlo Hhi].
  { pose proof (tf_max _ _ T) as Hm. pose proof (tf_count _ _ T) as Hc. pose proof (tf_pos _ _ T). rewrite (tf_lo _ _ T), (tf_hi _ _ T). destruct (i_signed t) eqn:Es; [lia|]. split; [lia|].
    assert (i_bytes t <= 7) by (destruct (decide (i_bytes t = 8)); [exfalso; by apply Hu|lia]). unfold i_count in Hc.
    pose proof (Z.pow_le_mono_r 256 (Z.of_nat (i_bytes t)) 7 ltac:(lia) ltac:(lia)) as Hp. change (256 ^ 7)%Z with 72057594037927936%Z in Hp. change (2 ^ 63)%Z with 9223372036854775808%Z. lia. }
  unfold read_int, stoll. split.
  - destruct (read_number l) as [[neg v]|] eqn:E; [|done]. apply read_number_some in E. unfold signed_value in E. cbn [fst snd] in E. set (y := if neg then _ else _) in *.
    destruct (_ && _)%Z; [|done]. destruct (Z.ltb_spec y (i_min t)); [done|]. destruct (Z.ltb_spec (i_max t) y); [done|]. intros [= <-]. done.
  - intros [(p & E & Hp)%line_number_read Hx]. rewrite E. destruct p as [neg v]. unfold signed_value in Hp. cbn [fst snd] in Hp. cbv beta iota zeta. rewrite Hp.
    rewrite (proj2 (andb_true_iff _ _)) by (rewrite Z.leb_le, Z.ltb_lt; lia). destruct (Z.ltb_spec x (i_min t)); [lia|]. destruct (Z.ltb_spec (i_max t) x); [lia|]. done.
Qed.
Lemma read_lines_spec {A} (f : list N -> result A) (R : list N -> A -> Prop) lines xs :
  (forall l x, f l = Ret x <-> R l x) -> read_lines f lines = Ret xs <-> Forall2 R lines xs.
Proof.
  intros HR. revert xs. induction lines as [|l lines IH]; intros xs; cbn [read_lines].
  - split; [by intros [= <-]|]. by inversion 1.
  - split.
    + destruct (f l) as [x|] eqn:E; [|done]. destruct (read_lines f lines) as [ys|]; [|done]. intros [= <-]. constructor; [by apply HR|]. by apply IH.
    + inversion 1 as [|? x ? ys H1 H2]; subst. apply HR in H1. rewrite H1. apply IH in H2. by rewrite H2.
Qed.
Lemma Forall2_Forall_and {A B} (R : A -> B -> Prop) (P : B -> Prop) l k : Forall2 (fun a b => R a b /\ P b) l k <-> Forall2 R l k /\ Forall P k.
Proof.
  split.
  - induction 1 as [|a b l k [H1 H2] _ [IH1 IH2]]; [done|]. split; by constructor.
  - intros [H HP]. induction H; [constructor|]. apply Forall_cons in HP as [? ?]. constructor; auto.
Qed.
Lemma encode_ints_spec t h input file : type_facts t h -> i_bytes t <= 8 -> ~ (i_bytes t = 8 /\ i_signed t = false) ->
  encode_ints t input = Ret file <-> exists xs, Forall2 line_number (getlines input) xs /\ Forall (in_type t) xs /\ int_file (i_bytes t) xs file.
Proof.
  intros T H8 Hu. unfold encode_ints. replace ((i_bytes t =? 8) && negb (i_signed t)) with false.
  2:{ symmetry. apply andb_false_iff. rewrite Nat.eqb_neq, negb_false_iff. destruct (decide (i_bytes t = 8)); [|by left]. right. destruct (i_signed t); [done|]. exfalso. by apply Hu. }
  pose proof (fun xs => read_lines_spec (read_int t) (fun l x => line_number l x /\ in_type t x) (getlines input) xs (fun l x => read_int_spec t h l x T Hu H8)) as HR. split.
  - destruct (read_lines _ _) as [xs|] eqn:E; [|done]. intros [= <-]. exists xs. pose proof (proj1 (HR xs) eq_refl) as H. apply Forall2_Forall_and in H as [E1 E2]. split_and!; [done..|]. by eapply save_int_file.
  - intros (xs & H1 & H2 & H3). rewrite (proj2 (HR xs)) by by apply Forall2_Forall_and. f_equal. symmetry. by apply int_file_save.
Qed.
Lemma encode_uint64_spec input file :
  encode_ints uint64 input = Ret file <-> exists xs, Forall2 line_number (getlines input) xs /\ Forall (fun x => - 2 ^ 64 < x < 2 ^ 64)%Z xs /\ int_file 8 xs file.
Proof.
  unfold encode_ints. cbn [i_bytes uint64 i_signed negb andb Nat.eqb].
  pose proof (type_facts_std uint64 ltac:(unfold std_type; rewrite !elem_of_cons; tauto)) as T.
  assert (forall l x, stoull l = Ret x <-> exists y, line_number l y /\ (- 2 ^ 64 < y < 2 ^ 64)%Z /\ x = (y mod 2 ^ 64)%Z) as HS.
  { intros l x. unfold stoull. split.
    - destruct (read_number l) as [[neg v]|] eqn:E; [|done]. destruct (N.ltb_spec v (2 ^ 64)) as [Hv|]; [|done]. intros [= <-]. apply read_number_some in E. eexists. split; [exact E|]. unfold signed_value. cbn [fst snd].
      apply N2Z.inj_lt in Hv. change (Z.of_N (2 ^ 64)) with (2 ^ 64)%Z in Hv. destruct neg; split; try done; try lia.
    - intros (y & (p & E & <-)%line_number_read & Hy & ->). rewrite E. destruct p as [neg v]. unfold signed_value in *. cbn [fst snd] in *.
      assert (v < 2 ^ 64)%N as Hv. { apply N2Z.inj_lt. change (Z.of_N (2 ^ 64)) with (2 ^ 64)%Z. destruct neg; lia. }
      apply N.ltb_lt in Hv. rewrite Hv. destruct neg; [done|]. f_equal. symmetry. apply Z.mod_small. lia. }
  assert (forall lines xs, read_lines stoull lines = Ret xs <-> exists ys, Forall2 line_number lines ys /\ Forall (fun x => - 2 ^ 64 < x < 2 ^ 64)%Z ys /\ xs = (fun y => y mod 2 ^ 64)%Z <$> ys) as HR.
  { intros lines xs. rewrite (read_lines_spec _ _ _ _ HS). split.
    - induction 1 as [|l x lines xs (y & H1 & H2 & ->) _ (ys & H3 & H4 & ->)]; [exists []; done|]. exists (y :: ys). split_and!; [by constructor..|done].
    - intros (ys & H1 & H2 & ->). induction H1 as [|l y lines ys H _ IH]; [constructor|]. apply Forall_cons in H2 as [H2 H2']. cbn [fmap list_fmap]. constructor; [by exists y|]. by apply IH. }
  assert (forall ys, save_vector (enc_int uint64) ((fun y => y mod 2 ^ 64)%Z <$> ys) = save_vector (enc_int uint64) ys) as Hsave.
  { intros ys. unfold save_vector. f_equal. rewrite <- list_fmap_compose. apply list_fmap_ext. intros i y _. unfold compose, enc_int. change (i_count uint64) with (2 ^ 64)%Z. by rewrite Z.mod_mod. }
  split.
  - destruct (read_lines _ _) as [xs|] eqn:E; [|done]. intros [= <-]. apply HR in E as (ys & H1 & H2 & ->). exists ys. split_and!; [done..|]. rewrite Hsave. exact (save_int_file uint64 _ ys T).
  - intros (ys & H1 & H2 & H3). rewrite (proj2 (HR _ ((fun y => y mod 2 ^ 64)%Z <$> ys))) by (exists ys; done). f_equal. rewrite Hsave. symmetry. exact (int_file_save uint64 ys file H3).
Qed.
(** ** Printing numbers *)
Lemma print_int_spec t h x : type_facts t h -> i_bytes t <> 1 -> i_bytes t <= 8 -> in_type t x -> signed_numeral (print_int t x) x.
Proof.
  intros T H1 H8 Hx. apply (tf_in _ _ T) in Hx. rewrite (tf_lo _ _ T), (tf_hi _ _ T) in Hx. pose proof (tf_max _ _ T) as Hm. pose proof (tf_pos _ _ T). unfold print_int. destruct (Nat.eqb_spec (i_bytes t) 1); [done|].
  change (2 ^ 63)%Z with 9223372036854775808%Z in Hm.
  destruct (Z.ltb_spec x 0).
  - replace x with (- Z.of_N (Z.to_N (- x)))%Z at 2 by lia. apply sn_minus, print_unsigned_spec. change (2 ^ 64)%N with 18446744073709551616%N. destruct (i_signed t); lia.
  - replace x with (Z.of_N (Z.to_N x))%Z at 2 by lia. apply sn_plain, print_unsigned_spec. change (2 ^ 64)%N with 18446744073709551616%N. destruct (i_signed t); lia.
Qed.
Lemma signed_numeral_no_newline s x : signed_numeral s x -> 10%N ∉ s.
Proof. inversion 1 as [ds v Hn|ds v Hn|ds v Hn]; subst; pose proof (numeral_no_newline _ _ Hn); [done|..]; rewrite not_elem_of_cons; done. Qed.
Lemma signed_line s x : signed_numeral s x -> line_number s x.
Proof. intros H. exists [], s, []. rewrite app_nil_r. split_and!; [done|constructor|done|done]. Qed.
Lemma decode_ints_spec t h xs file : type_facts t h -> i_bytes t <> 1 -> i_bytes t <= 8 -> int_file (i_bytes t) xs file -> Forall (in_type t) xs ->
  exists out lines, decode_ints t file = Ret out /\ out = concat ((fun l => l ++ [10%N]) <$> lines) /\ Forall2 signed_numeral lines xs.
Proof.
  intros T H1 H8 Hf Hx. unfold decode_ints. rewrite (load_int_file _ _ _ _ T Hf Hx). eexists _, (print_int t <$> xs). split; [done|]. split; [by rewrite <- list_fmap_compose|].
  clear Hf. induction Hx; constructor; [by eapply print_int_spec|done].
Qed.
Lemma numeral_lines lines xs : Forall2 signed_numeral lines xs -> getlines (concat ((fun l => l ++ [10%N]) <$> lines)) = lines /\ Forall2 line_number lines xs.
Proof.
  intros H. split.
  - apply getlines_spec. split; [|by left]. induction H; constructor; [by eapply signed_numeral_no_newline|done].
  - eapply Forall2_impl; [exact H|]. intros ? ?. apply signed_line.
Qed.

(** ** Replacing text *)
Lemma find_text_some search s k : find_text search s = Some k -> exists a b, s = a ++ search ++ b /\ length a = k /\ forall j, j < k -> ~ search `prefix_of` drop j s.
Proof.
  revert k. induction s as [|c s IH]; intros k; cbn [find_text]; case_decide as Hp; intros E.
  - injection E as <-. destruct Hp as [b Hb]. exists [], b. split_and!; [done..|lia].
  - done.
  - injection E as <-. destruct Hp as [b Hb]. exists [], b. split_and!; [done..|lia].
  - destruct (find_text search s) as [k'|]; [|done]. cbn in E. injection E as <-. destruct (IH k' eq_refl) as (a & b & -> & Hl & Hn). exists (c :: a), b. split_and!; [done|cbn; lia|].
    intros [|j] Hj; [done|]. cbn [drop]. apply Hn. lia.
Qed.
Lemma find_text_none search s : find_text search s = None -> forall j, ~ search `prefix_of` drop j s.
Proof.
  induction s as [|c s IH]; cbn [find_text]; case_decide as Hp; intros E j; [done|by rewrite drop_nil|done|]. destruct (find_text search s); [done|]. destruct j as [|j]; [done|]. by apply IH.
Qed.
Lemma replaced_skip search rep a s t : (forall j, j < length a -> ~ search `prefix_of` drop j (a ++ s)) -> replaced search rep s t -> replaced search rep (a ++ s) (a ++ t).
Proof.
  induction a as [|c a IH]; intros Hn H; [done|]. cbn [app]. apply rp_skip.
  - apply (Hn 0). cbn. lia.
  - apply IH; [|done]. intros j Hj. apply (Hn (S j)). cbn. lia.
Qed.
Lemma replace_loop_spec fuel search rep : search <> [] -> forall before rest, length rest < fuel ->
  exists t, replace_loop fuel search rep before rest = Some (before ++ t) /\ replaced search rep rest t.
Proof.
  intros Hs. induction fuel as [|fuel IH]; intros before rest Hf; [lia|]. cbn [replace_loop]. destruct (find_text search rest) as [k|] eqn:E.
  - destruct (find_text_some _ _ _ E) as (a & b & -> & <- & Hn). rewrite take_app.
    replace (drop (length a + length search) (a ++ search ++ b)) with b by (rewrite app_assoc, drop_app_alt; [done|by rewrite app_length]).
    destruct (IH (before ++ a ++ rep) b) as (t & Et & Ht). { rewrite !app_length in Hf. destruct search; [done|]. cbn in Hf. lia. }
    exists (a ++ rep ++ t). split; [rewrite Et; by rewrite <- !app_assoc|]. apply replaced_skip; [done|]. by constructor.
  - exists rest. split; [done|]. rewrite <- (app_nil_r rest). apply replaced_skip; [|constructor]. intros j _. rewrite app_nil_r. by apply find_text_none.
Qed.
Lemma replace_all_spec search rep s : search <> [] -> exists t, replace_all_substrings s search rep = Some t /\ replaced search rep s t.
Proof. intros Hs. exact (replace_loop_spec (S (length s)) search rep Hs [] s ltac:(lia)). Qed.
Lemma replaced_unique search rep s t1 : search <> [] -> replaced search rep s t1 -> forall t2, replaced search rep s t2 -> t1 = t2.
Proof.
  intros Hs. induction 1 as [|s t _ IH|c s t Hn _ IH]; intros t2 H2; inversion H2 as [E|s' t' H' E|c' s' t' Hn' H' E]; subst; try done.
  - by destruct search.
  - by destruct search.
  - apply app_inv_head in E. subst. f_equal. by apply IH.
  - destruct Hn'. rewrite E. by exists s.
  - destruct Hn. rewrite <- E. by exists s'.
  - f_equal. by apply IH.
Qed.
Lemma replace_all_eq search rep s t : search <> [] -> replaced search rep s t -> replace_all_substrings s search rep = Some t.
Proof. intros Hs H. destruct (replace_all_spec search rep s Hs) as (t' & E & Ht). rewrite E. f_equal. by eapply replaced_unique. Qed.

(** ** Strings *)
Lemma escape_spec s : exists t, escape s = Some t /\ escaped s t.
Proof.
  assert (exists t1 t, replaced [92%N] [92%N; 92%N] s t1 /\ replaced [10%N] [92%N; 110%N] t1 t /\ escaped s t) as (t1 & t & H1 & H2 & H3).
  { induction s as [|c s (t1 & t & H1 & H2 & H3)]; [exists [], []; split_and!; constructor|].
    assert (forall c' (u : list N), c' <> 10%N -> ~ [10%N] `prefix_of` (c' :: u)) as Hten by (intros c' u Hc [k Hk]; cbn in Hk; congruence).
    destruct (decide (c = 92%N)) as [-> |H92].
    - exists (92%N :: 92%N :: t1), (92%N :: 92%N :: t). split_and!; [by apply (rp_hit [92%N] [92%N; 92%N])|by do 2 (apply rp_skip; [by apply Hten|])|by constructor].
    - destruct (decide (c = 10%N)) as [-> |H10].
      + exists (10%N :: t1), (92%N :: 110%N :: t). split_and!; [apply rp_skip; [|done]; intros [k Hk]; cbn in Hk; congruence|by apply (rp_hit [10%N] [92%N; 110%N])|by constructor].
      + exists (c :: t1), (c :: t). split_and!; [apply rp_skip; [|done]; intros [k Hk]; cbn in Hk; congruence|apply rp_skip; [by apply Hten|done]|by constructor]. }
  exists t. split; [|done]. unfold escape. rewrite (replace_all_eq [92%N] [92%N; 92%N] s t1) by done. rewrite bind_S. by apply replace_all_eq.
Qed.
Lemma escaped_no_newline s t : escaped s t -> 10%N ∉ t.
Proof. induction 1 as [|s t _ IH|s t _ IH|c s t H1 H2 _ IH]; [apply not_elem_of_nil|rewrite !not_elem_of_cons; done..|]. rewrite not_elem_of_cons. split; [congruence|done]. Qed.
Lemma unescape_spec s t : escaped s t -> exists u, unescape t = Some u /\ (u = s <-> ~ contains [92%N; 110%N] s) /\ (0%N ∉ s -> 0%N ∉ u).
Proof.
  intros He.
  assert (exists m, replaced [92%N; 92%N] [92%N] t m /\ replaced [10%N] [92%N; 110%N] s m) as (m & H1 & H2).
  { induction He as [|s t _ (m & H1 & H2)|s t _ (m & H1 & H2)|c s t H92 H10 _ (m & H1 & H2)].
    - exists []. split; constructor.
    - exists (92%N :: m). split; [by apply (rp_hit [92%N; 92%N] [92%N])|]. apply rp_skip; [|done]. intros [k Hk]. cbn in Hk. congruence.
    - exists (92%N :: 110%N :: m). split; [|by apply (rp_hit [10%N] [92%N; 110%N])]. apply rp_skip; [intros [k Hk]; cbn in Hk; congruence|]. apply rp_skip; [intros [k Hk]; cbn in Hk; congruence|done].
    - exists (c :: m). split; (apply rp_skip; [|done]); intros [k Hk]; cbn in Hk; congruence. }
  unfold unescape. rewrite (replace_all_eq [92%N; 92%N] [92%N] t m) by done. rewrite bind_S.
  destruct (replace_all_spec [92%N; 110%N] [10%N] m ltac:(done)) as (u & Eu & Hu). exists u. split; [done|]. split; [split|].
  - intros ->. clear -Hu. assert (forall x y, replaced [92%N; 110%N] [10%N] x y -> forall a b, y = a ++ [92%N; 110%N] ++ b -> False) as Hno; [|intros (a & b & E); exact (Hno _ _ Hu a b E)].
    induction 1 as [|x y _ IH|c x y Hn Hr IH]; intros a b E.
    + by destruct a.
    + destruct a as [|c a]; cbn in E; [congruence|]. injection E as _ E. exact (IH a b E).
    + destruct a as [|c' a]; cbn in E.
      * injection E as -> ->. inversion Hr as [|? ? ? E1 E2|c' x' t' _ _ E1 E2]; subst. apply Hn. by exists x'.
      * injection E as -> E. exact (IH a b E).
  - intros Hc. assert (replaced [92%N; 110%N] [10%N] m s) as H3; [|apply (replaced_unique [92%N; 110%N] [10%N] m); done]. clear -H2 Hc. induction H2 as [|s m _ IH|c s m Hn Hr IH].
    + constructor.
    + apply (rp_hit [92%N; 110%N] [10%N]). apply IH. intros (a & b & ->). apply Hc. by exists (10%N :: a), b.
    + apply rp_skip.
      * intros [k Hk]. cbn in Hk. injection Hk as -> ->. inversion Hr as [|? ? ? E1 E2|c' x' t' _ _ E1 E2]; subst. apply Hc. by exists [], x'.
      * apply IH. intros (a & b & ->). apply Hc. by exists (c :: a), b.
  - intros H0.
    assert (forall search rep x y, 0%N ∉ rep -> replaced search rep x y -> 0%N ∉ x -> 0%N ∉ y) as Hz.
    { intros search rep x y Hr. induction 1 as [|x y _ IH|c x y _ _ IH]; [done|rewrite !not_elem_of_app; tauto|rewrite !not_elem_of_cons; tauto]. }
    eapply Hz; [|exact Hu|]; [by rewrite not_elem_of_cons; split; [done|apply not_elem_of_nil]|]. eapply Hz; [|exact H2|done]. rewrite !not_elem_of_cons. repeat split; try done. apply not_elem_of_nil.
Qed.
Lemma mapM_Forall2 {A B} (f : A -> option B) (R : A -> B -> Prop) l : (forall x, exists y, f x = Some y /\ R x y) -> exists k, mapM f l = Some k /\ Forall2 R l k.
Proof.
  intros Hf. induction l as [|x l (k & E & H)]; [by exists []|]. destruct (Hf x) as (y & Ey & Hy). exists (y :: k). split; [|by constructor]. cbn. rewrite Ey. cbn. change (mapM f l = Some k) in E. by rewrite E.
Qed.
Lemma load_save_strings v : Forall (fun s => 0%N ∉ s) v -> load_strings (save_strings v) = v.
Proof. intros H. unfold load_strings. rewrite (split_strings_spec v [] H (not_elem_of_nil _)). by destruct v. Qed.
Lemma decode_strings_spec v : Forall (fun s => 0%N ∉ s) v -> exists lines, decode_strings (save_strings v) = Some (concat ((fun l => l ++ [10%N]) <$> lines)) /\ Forall2 escaped v lines.
Proof.
  intros H0. unfold decode_strings. rewrite (load_save_strings _ H0). destruct (mapM_Forall2 escape escaped v escape_spec) as (k & E & Hk). rewrite E. by exists k.
Qed.
Lemma encode_decode_strings v : Forall (fun s => 0%N ∉ s) v ->
  exists text file, decode_strings (save_strings v) = Some text /\ encode_strings text = Some file /\ (file = save_strings v <-> Forall (fun s => ~ contains [92%N; 110%N] s) v).
Proof.
  intros H0. destruct (decode_strings_spec v H0) as (lines & E & HF). eexists. 
  assert (Forall (fun l => 10%N ∉ l) lines) as Hnl by (clear -HF; induction HF; constructor; [by eapply escaped_no_newline|done]).
  assert (exists us, mapM unescape lines = Some us /\ Forall (fun s => 0%N ∉ s) us /\ (us = v <-> Forall (fun s => ~ contains [92%N; 110%N] s) v)) as (us & Eu & Hu0 & Hus).
  { clear -HF H0. induction HF as [|s t v lines Hs _ IH]; [by exists []|]. apply Forall_cons in H0 as [H0 H0']. destruct (IH H0') as (us & Eu & Hu0 & Hus). destruct (unescape_spec _ _ Hs) as (u & E & Hc & Hz). exists (u :: us). split.
    - change (mapM unescape (t :: lines)) with (y ← unescape t; k ← mapM unescape lines; Some (y :: k)). rewrite E, bind_S, Eu. done.
    - split; [constructor; auto|]. rewrite Forall_cons, <- Hc, <- Hus. split; [by intros [= -> ->]|by intros [-> ->]]. }
  exists (save_strings us). split; [exact E|]. split.
  - unfold encode_strings. rewrite <- (app_nil_r (concat _)), (getlines_app _ _ Hnl). cbn [getlines getlines_from]. rewrite app_nil_r, Eu. done.
  - rewrite <- Hus. split; [|by intros ->]. intros Es. rewrite <- (load_save_strings _ Hu0), Es. by apply load_save_strings.
Qed.
