From Verif Require Import Base ProtobufModel ChFileModel VectorIoModel TextModel TextSpec TextProofs VectorToolModel VectorToolSpec VectorToolProofs GraphToolSpec CoordToolModel CoordToolSpec.
From Coq Require String. Import String.StringSyntax.
Ltac Zify.zify_post_hook ::= idtac.

(** ** Lines *)
Lemma not_in_rev (c : N) l : c ∉ l -> c ∉ rev l.
Proof. intros H. by rewrite elem_of_list_In, <- in_rev, <- elem_of_list_In. Qed.
Lemma getlines_from_lines input : forall line, 10%N ∉ line -> exists lines, getlines_from line input = lines /\ Forall (fun l => 10%N ∉ l) lines /\
  (rev line ++ input = concat ((fun l => l ++ [10%N]) <$> lines) \/ exists init last, lines = init ++ [last] /\ last <> [] /\ rev line ++ input = concat ((fun l => l ++ [10%N]) <$> init) ++ last).
Proof.
  induction input as [|c input IH]; intros line Hl; cbn [getlines_from].
  - destruct line as [|c line].
    + exists []. split; [done|]. split; [constructor|]. by left.
    + exists [rev (c :: line)]. split; [done|]. split. { constructor; [|constructor]. by apply not_in_rev. }
      right. exists [], (rev (c :: line)). split; [done|]. split; [cbn; by destruct (rev line)|]. by rewrite app_nil_r.
  - destruct (N.eqb_spec c 10) as [-> |Hc].
    + destruct (IH [] ltac:(set_solver)) as (lines & -> & Hf & Hr). exists (rev line :: lines). split; [done|]. split. { constructor; [by apply not_in_rev|done]. }
      cbn [rev app] in Hr. destruct Hr as [Hr|(init & last & -> & Hne & Hr)].
      * left. cbn [fmap list_fmap concat]. rewrite <- app_assoc. cbn [app]. by rewrite Hr.
      * right. exists (rev line :: init), last. split; [done|]. split; [done|]. cbn [fmap list_fmap concat]. rewrite <- !app_assoc. cbn [app]. by rewrite Hr.
    + destruct (IH (c :: line)) as (lines & -> & Hf & Hr). { rewrite not_elem_of_cons. split; [congruence|done]. }
      exists lines. split; [done|]. split; [done|]. cbn [rev] in Hr. rewrite <- app_assoc in Hr. exact Hr.
Qed.
Lemma getlines_lines file : lines_of (getlines file) file.
Proof. destruct (getlines_from_lines file [] ltac:(set_solver)) as (lines & E & Hf & Hr). unfold getlines. rewrite E. by split. Qed.

(** ** Words and numbers *)
Lemma Forall_white l : Forall (fun c => is_space c = true) l <-> Forall white l.
Proof. split; intros H; eapply Forall_impl; [exact H| |exact H|]; intros c; apply is_space_white. Qed.
Lemma skip_white b l : Forall white b -> stops is_space l -> skip_spaces (b ++ l) = l.
Proof. intros Hb Hl. unfold skip_spaces. by rewrite (span_app _ _ _ (proj2 (Forall_white b) Hb) Hl). Qed.
Lemma read_word_iff l w rest : read_word l = Some (w, rest) <-> word_text w l rest.
Proof.
  split.
  - unfold read_word, skip_spaces. destruct (span_spec is_space l) as (b & l1 & -> & -> & Hb & Hs). cbn [snd]. destruct (span_spec (fun c => negb (is_space c)) l1) as (w' & r & -> & -> & Hw & Hr).
    intros E. assert (w' <> [] /\ w' = w /\ r = rest) as (Hne & -> & ->) by (destruct w'; [done|]; split; [done|]; split; congruence). clear E.
    exists b. split; [done|]. split; [by apply Forall_white|]. split; [done|]. split.
    + eapply Forall_impl; [exact Hw|]. cbv beta. intros c Hc Hwh. apply is_space_white in Hwh. by rewrite Hwh in Hc.
    + destruct rest as [|c rest]; [done|]. cbn [stops] in Hr. apply is_space_white. by destruct (is_space c).
  - intros (b & -> & Hb & Hne & Hw & Hr). unfold read_word. rewrite skip_white; [|done|].
    + rewrite span_app; [by destruct w| |].
      * eapply Forall_impl; [exact Hw|]. cbv beta. intros c Hc. destruct (is_space c) eqn:E; [|done]. by apply is_space_white in E.
      * destruct rest as [|c rest]; [done|]. cbn [stops]. apply is_space_white in Hr. by rewrite Hr.
    + destruct w as [|c w]; [done|]. apply Forall_cons in Hw as [Hc _]. cbn [app stops]. destruct (is_space c) eqn:E; [|done]. by apply is_space_white in E.
Qed.
Lemma read_word_white l : read_word l = None <-> Forall white l.
Proof.
  split.
  - unfold read_word, skip_spaces. destruct (span_spec is_space l) as (b & l1 & -> & -> & Hb & Hs). cbn [snd]. destruct (span_spec (fun c => negb (is_space c)) l1) as (w' & r & -> & -> & Hw & Hr).
    destruct w' as [|c w']; [|done]. intros _. destruct r as [|c r]; [rewrite !app_nil_r; by apply Forall_white|]. cbn [app stops] in Hs, Hr. by rewrite Hs in Hr.
  - intros H. unfold read_word. rewrite <- (app_nil_r l), skip_white; done.
Qed.
(** Both kinds of numbers are read alike. *)
Definition read_sign_digits (l : list N) : option (bool * N * list N) :=
  let l := skip_spaces l in
  let '(negative, l) := match l with c :: l' => if (c =? 45)%N then (true, l') else if (c =? 43)%N then (false, l') else (false, l) | [] => (false, l) end in
  let '(ds, rest) := span is_digit l in match ds with [] => None | _ => Some (negative, digits_value ds, rest) end.
Lemma read_unsigned_eq bits l : read_unsigned bits l =
  match read_sign_digits l with None => None | Some (neg, v, rest) => if (v <? 2 ^ bits)%N then Some ((if neg : bool then (2 ^ bits - v) mod 2 ^ bits else v)%N, rest) else None end.
Proof.
  unfold read_unsigned, read_sign_digits. set (p := match skip_spaces l with [] => _ | _ :: _ => _ end). destruct p as [neg l']. destruct (span is_digit l') as [ds r]. by destruct ds.
Qed.
Lemma read_signed_eq bits l : read_signed bits l =
  match read_sign_digits l with None => None | Some (neg, v, rest) => let x := signed_value (neg, v) in if ((- 2 ^ (bits - 1) <=? x) && (x <? 2 ^ (bits - 1)))%Z then Some (x, rest) else None end.
Proof.
  unfold read_signed, read_sign_digits. set (p := match skip_spaces l with [] => _ | _ :: _ => _ end). destruct p as [neg l']. destruct (span is_digit l') as [ds r]. by destruct ds.
Qed.
Lemma read_sign_digits_some l neg v rest : read_sign_digits l = Some (neg, v, rest) -> numeral_text (signed_value (neg, v)) l rest.
Proof.
  unfold read_sign_digits, skip_spaces. destruct (span_spec is_space l) as (w & l1 & E1 & -> & Hw & _). rewrite E1. cbn [snd].
  apply Forall_white in Hw.
  assert (forall neg' s l2, l1 = s ++ l2 -> (neg' = true /\ s = [45%N] \/ neg' = false /\ s = [43%N] \/ neg' = false /\ s = []) ->
    (let '(ds, rest) := span is_digit l2 in match ds with [] => None | _ => Some (neg', digits_value ds, rest) end) = Some (neg, v, rest) -> numeral_text (signed_value (neg, v)) (w ++ l1) rest) as Hmain.
  { intros neg' s l2 -> Hs. destruct (span_spec is_digit l2) as (ds & r & E2 & -> & Hd & Hr). rewrite E2. intros E.
    assert (ds <> [] /\ neg' = neg /\ digits_value ds = v /\ r = rest) as (Hne & -> & <- & ->) by (destruct ds; [done|]; split; [done|]; by injection E as -> -> ->). clear E.
    pose proof (digits_numeral _ Hne Hd) as Hn. exists w, (s ++ ds). split; [by rewrite !app_assoc|]. split; [done|]. split.
    - destruct Hs as [[-> ->]|[[-> ->]|[-> ->]]]; cbn; by constructor.
    - destruct rest as [|c rest]; [done|]. cbn [stops] in Hr. intros Hc. apply is_digit_spec in Hc. congruence. }
  destruct l1 as [|c l1]; [apply (Hmain false [] []); [done|]; right; right; done|].
  destruct (N.eqb_spec c 45) as [-> |_]; [apply (Hmain true [45%N]); [done|]; by left|].
  destruct (N.eqb_spec c 43) as [-> |_]; [apply (Hmain false [43%N]); [done|]; by right; left|].
  apply (Hmain false []); [done|]. by right; right.
Qed.
Lemma read_sign_digits_text l x rest : numeral_text x l rest -> exists neg v, read_sign_digits l = Some (neg, v, rest) /\ signed_value (neg, v) = x.
Proof.
  intros (w & s & -> & Hw & Hs & Hr).
  assert (stops is_digit rest) as Hst by (destruct rest as [|c rest]; [done|]; cbn; destruct (is_digit c) eqn:E; [|done]; by apply is_digit_spec in E).
  assert (forall neg ds v, numeral ds v -> (let '(ds, rest) := span is_digit (ds ++ rest) in match ds with [] => None | _ => Some (neg, digits_value ds, rest) end) = Some (neg : bool, v, rest)) as Hspan.
  { intros neg ds v Hn. destruct (numeral_value _ _ Hn) as (Hne & Hd & <-). rewrite (span_app _ _ _ Hd Hst). by destruct ds. }
  unfold read_sign_digits. inversion Hs as [ds v Hn E1 E2|ds v Hn E1 E2|ds v Hn E1 E2]; subst s x.
  - destruct (numeral_value _ _ Hn) as (Hne & Hd & _). destruct ds as [|c ds]; [done|]. pose proof Hd as [Hc _]%Forall_cons.
    rewrite skip_white; [|done|cbn; by apply digit_not_space]. cbn [app]. apply is_digit_spec in Hc. destruct (N.eqb_spec c 45); [lia|]. destruct (N.eqb_spec c 43); [lia|].
    exists false, v. split; [|done]. exact (Hspan false _ _ Hn).
  - rewrite skip_white by done. cbn [app]. change (43 =? 45)%N with false. change (43 =? 43)%N with true. cbv iota. exists false, v. split; [|done]. exact (Hspan false _ _ Hn).
  - rewrite skip_white by done. cbn [app]. change (45 =? 45)%N with true. cbv iota. exists true, v. split; [|done]. exact (Hspan true _ _ Hn).
Qed.
Lemma read_unsigned_iff l v rest : read_unsigned 32 l = Some (v, rest) <-> exists x, numeral_text x l rest /\ (- 2 ^ 32 < x < 2 ^ 32)%Z /\ (x mod 2 ^ 32 = Z.of_N v)%Z.
Proof.
  rewrite read_unsigned_eq.
  assert (forall neg u, (u < 2 ^ 32)%N -> (signed_value (neg, u) mod 2 ^ 32)%Z = Z.of_N (if neg then (2 ^ 32 - u) mod 2 ^ 32 else u)) as Hval.
  { intros neg u Hu. unfold signed_value. cbn [fst snd]. destruct neg.
    - rewrite N2Z.inj_mod, N2Z.inj_sub by lia. change (Z.of_N (2 ^ 32)) with (2 ^ 32)%Z. replace (2 ^ 32 - Z.of_N u)%Z with (- Z.of_N u + 1 * 2 ^ 32)%Z by lia. by rewrite Z.mod_add by done.
    - apply Z.mod_small. change (2 ^ 32)%N with 4294967296%N in Hu. change (2 ^ 32)%Z with 4294967296%Z. lia. }
  split.
  - destruct (read_sign_digits l) as [[[neg u] r]|] eqn:E; [|done]. destruct (N.ltb_spec u (2 ^ 32)) as [Hlt|]; [|done]. intros [= <- <-]. exists (signed_value (neg, u)).
    split; [by apply read_sign_digits_some|]. split; [|by apply Hval]. unfold signed_value. cbn [fst snd]. change (2 ^ 32)%N with 4294967296%N in Hlt. change (2 ^ 32)%Z with 4294967296%Z. destruct neg; lia.
  - intros (x & Hx & Hr & Hm). destruct (read_sign_digits_text _ _ _ Hx) as (neg & u & -> & <-).
    assert (u < 2 ^ 32)%N as Hu. { unfold signed_value in Hr. cbn [fst snd] in Hr. change (2 ^ 32)%N with 4294967296%N. change (2 ^ 32)%Z with 4294967296%Z in Hr. destruct neg; lia. }
    destruct (N.ltb_spec u (2 ^ 32)); [|lia]. do 2 f_equal. rewrite (Hval neg u Hu) in Hm. by apply N2Z.inj.
Qed.
Lemma read_signed_iff l x rest : read_signed 64 l = Some (x, rest) <-> numeral_text x l rest /\ (- 2 ^ 63 <= x < 2 ^ 63)%Z.
Proof.
  rewrite read_signed_eq. change (64 - 1)%Z with 63%Z. split.
  - destruct (read_sign_digits l) as [[[neg u] r]|] eqn:E; [|done]. cbv zeta. destruct (_ && _) eqn:Eb; [|done]. intros [= <- <-]. apply andb_true_iff in Eb as [H1%Z.leb_le H2%Z.ltb_lt].
    split; [by apply read_sign_digits_some|done].
  - intros [Hx [H1 H2]]. destruct (read_sign_digits_text _ _ _ Hx) as (neg & u & -> & <-). cbv zeta. apply Z.leb_le in H1. apply Z.ltb_lt in H2. by rewrite H1, H2.
Qed.

(** ** The two kinds of lines *)
Lemma read_size_iff l n : read_size l = Ret n <-> size_line (N.to_nat n) l.
Proof.
  split.
  - unfold read_size. destruct (read_word l) as [[p l1]|] eqn:E1; [rewrite bind_S|done]. destruct (read_word l1) as [[aux l2]|] eqn:E2; [rewrite bind_S|done]. destruct (read_word l2) as [[sp l3]|] eqn:E3; [rewrite bind_S|done].
    destruct (read_word l3) as [[co l4]|] eqn:E4; [rewrite bind_S|done]. cbv beta iota. destruct (_ && _) eqn:Eb; [|done]. rewrite !andb_true_iff, !bool_decide_eq_true in Eb. destruct Eb as [[[-> ->] ->] ->].
    destruct (read_unsigned 32 l4) as [[n' l5]|] eqn:E5; [|done]. destruct (read_word l5) as [?|] eqn:E6; [done|]. intros [= ->].
    apply read_word_iff in E1, E2, E3, E4. apply read_word_white in E6. apply read_unsigned_iff in E5 as (x & Hx & Hr & Hm). exists l1, l2, l3, l4, l5, x. split_and!; try done; [apply Hr..|]. by rewrite N_nat_Z.
  - intros (l1 & l2 & l3 & l4 & l5 & x & H1%read_word_iff & H2%read_word_iff & H3%read_word_iff & H4%read_word_iff & Hx & H5%read_word_white & Hr & Hm). unfold read_size.
    rewrite H1, bind_S. cbv beta iota. rewrite H2, bind_S. cbv beta iota. rewrite H3, bind_S. cbv beta iota. rewrite H4, bind_S. cbv beta iota. rewrite !bool_decide_true by done. cbn [andb].
    rewrite N_nat_Z in Hm. rewrite (proj2 (read_unsigned_iff l4 n l5)) by (exists x; done). cbv beta iota. by rewrite H5.
Qed.
Lemma read_position_iff l v x y : read_position l = Ret (v, x, y) <-> position_line (N.to_nat v, x, y) l.
Proof.
  assert (forall u : N, Z.of_N ((u + (2 ^ 32 - 1)) mod 2 ^ 32) = (Z.of_N u - 1) mod 2 ^ 32)%Z as Hdec.
  { intros u. rewrite N2Z.inj_mod, N2Z.inj_add. change (Z.of_N (2 ^ 32 - 1)) with (2 ^ 32 - 1)%Z. change (Z.of_N (2 ^ 32)) with (2 ^ 32)%Z. replace (Z.of_N u + (2 ^ 32 - 1))%Z with (Z.of_N u - 1 + 1 * 2 ^ 32)%Z by lia. by rewrite Z.mod_add by done. }
  split.
  - unfold read_position. destruct (read_word l) as [[w l1]|] eqn:E1; [|done]. destruct (bool_decide _) eqn:Eb; [|done]. apply bool_decide_eq_true in Eb as ->.
    destruct (read_unsigned 32 l1) as [[u l2]|] eqn:E2; [rewrite bind_S|done]. destruct (read_signed 64 l2) as [[x' l3]|] eqn:E3; [rewrite bind_S|done]. destruct (read_signed 64 l3) as [[y' l4]|] eqn:E4; [rewrite bind_S|done]. cbv beta iota.
    destruct (read_word l4) as [?|] eqn:E5; [done|]. intros [= <- -> ->].
    apply read_word_iff in E1. apply read_word_white in E5. apply read_unsigned_iff in E2 as (z & Hz & Hr & Hm). apply read_signed_iff in E3 as [H3 H3'], E4 as [H4 H4'].
    exists l1, l2, l3, l4, z. split_and!; try done; [apply Hr..| |apply H3'|apply H3'|apply H4'|apply H4']. rewrite N_nat_Z, Hdec, <- Hm. rewrite Zminus_mod_idemp_l. done.
  - intros (l1 & l2 & l3 & l4 & z & H1%read_word_iff & Hz & H3 & H4 & H5%read_word_white & Hr & Hm & Hx & Hy). unfold read_position. rewrite H1. rewrite bool_decide_true by done.
    assert (exists u, (z mod 2 ^ 32 = Z.of_N u)%Z) as [u Hu]. { exists (Z.to_N (z mod 2 ^ 32)). rewrite Z2N.id; [done|]. by apply Z.mod_pos_bound. }
    rewrite (proj2 (read_unsigned_iff l1 u l2)) by (exists z; done). rewrite bind_S. cbv beta iota. rewrite (proj2 (read_signed_iff l2 x l3)) by done. rewrite bind_S. cbv beta iota. rewrite (proj2 (read_signed_iff l3 y l4)) by done. rewrite bind_S. cbv beta iota.
    rewrite H5. do 3 f_equal. apply N2Z.inj. rewrite Hdec, <- Hu, Zminus_mod_idemp_l, Hm. by rewrite N_nat_Z.
Qed.

(** ** The loop over the lines *)
(** The positions [ps] were read. *)
Definition holds (n : N) (ps : list (nat * Z * Z)) (s : kstate) : Prop :=
  k_count s = Some n /\ length (k_lat s) = N.to_nat n /\ length (k_lon s) = N.to_nat n /\ length (k_seen s) = N.to_nat n /\
  NoDup ps.*1.*1 /\ (forall v, v ∈ ps.*1.*1 -> v < N.to_nat n) /\ (forall v b, k_seen s !! v = Some b -> b = true <-> v ∈ ps.*1.*1) /\
  (forall v x y, (v, x, y) ∈ ps -> k_lon s !! v = Some x /\ k_lat s !! v = Some y).
Lemma comment_dec l : comment_line l \/ ~ comment_line l.
Proof. destruct l as [|c l]; [left; by left|]. destruct (decide (c = 99%N)) as [-> |Hne]; [left; right; by exists l|]. right. intros [?|(l' & ?)]; congruence. Qed.
Lemma coordinates_comment s l : comment_line l -> coordinates_line s l = Some (Ret s).
Proof. by intros [-> |(l' & ->)]. Qed.
Lemma coordinates_other s l : ~ comment_line l -> coordinates_line s l =
  match k_count s with
  | None => andthen (Some (read_size l)) (fun n => Some (Ret (mkKstate (Some n) (replicate (N.to_nat n) 0%Z) (replicate (N.to_nat n) 0%Z) (replicate (N.to_nat n) false))))
  | Some n => andthen (Some (read_position l)) (fun '(node, x, y) =>
      if (n <=? node)%N then Some Throw else
      b ← k_seen s !! N.to_nat node;
      if b : bool then Some Throw else
      seen ← wr (k_seen s) (N.to_nat node) true; lon ← wr (k_lon s) (N.to_nat node) x; lat ← wr (k_lat s) (N.to_nat node) y;
      Some (Ret (mkKstate (k_count s) lat lon seen)))
  end.
Proof.
  intros H. destruct l as [|c l]; [exfalso; apply H; by left|]. unfold coordinates_line. destruct (N.eqb_spec c 99) as [-> |_]; [exfalso; apply H; right; by exists l|done].
Qed.
Lemma position_step n ps s v x y : holds n ps s -> v < N.to_nat n ->
  (v ∈ ps.*1.*1 -> k_seen s !! v = Some true) /\
  (v ∉ ps.*1.*1 -> k_seen s !! v = Some false /\
     exists s', (seen ← wr (k_seen s) v true; lon ← wr (k_lon s) v x; lat ← wr (k_lat s) v y; Some (Ret (mkKstate (k_count s) lat lon seen))) = Some (Ret s') /\ holds n (ps ++ [(v, x, y)]) s').
Proof.
  intros (Hc & L1 & L2 & L3 & Hnd & Hlt & Hs & Hp) Hv. destruct (lookup_lt_is_Some_2 (k_seen s) v) as [b Hb]; [lia|]. pose proof (Hs _ _ Hb) as Hbv. rewrite Hb. split.
  - intros Hin. f_equal. by apply Hbv.
  - intros Hin. split. { destruct b; [|done]. exfalso. by apply Hin, Hbv. }
    rewrite (wr_Some (k_seen s)) by lia. rewrite bind_S. rewrite (wr_Some (k_lon s)) by lia. rewrite bind_S. rewrite (wr_Some (k_lat s)) by lia. rewrite bind_S. eexists. split; [done|].
    unfold holds. cbn [k_count k_lat k_lon k_seen]. rewrite !insert_length. rewrite !fmap_app. cbn [fmap list_fmap fst snd].
    split_and!; try done.
    + apply NoDup_app. split; [done|]. split; [|apply NoDup_singleton]. intros u Hu ->%elem_of_list_singleton. done.
    + intros u. rewrite elem_of_app, elem_of_list_singleton. intros [Hu| ->]; [by apply Hlt|done].
    + intros u b'. rewrite elem_of_app, elem_of_list_singleton. destruct (decide (u = v)) as [-> |Hne].
      * rewrite list_lookup_insert by lia. intros [= <-]. split; [by right|done].
      * rewrite list_lookup_insert_ne by done. intros Hu. rewrite (Hs _ _ Hu). split; [by left|]. by intros [?|?].
    + intros u x' y'. rewrite elem_of_app, elem_of_list_singleton. intros [Hu|[= -> -> ->]].
      * assert (u <> v) as Hne. { intros ->. apply Hin. rewrite <- list_fmap_compose. apply elem_of_list_fmap. by exists (v, x', y'). }
        rewrite !list_lookup_insert_ne by done. by apply Hp.
      * rewrite !list_lookup_insert by lia. done.
Qed.
Lemma lines_read n ls : forall ps s, holds n ps s ->
  coordinates_lines s ls <> None /\
  (forall s', coordinates_lines s ls = Some (Ret s') -> exists ps', position_lines ls ps' /\ holds n (ps ++ ps') s').
Proof.
  induction ls as [|l ls IH]; intros ps s Hs; cbn [coordinates_lines].
  { split; [done|]. intros s' [= <-]. exists []. rewrite app_nil_r. split; [constructor|done]. }
  destruct (comment_dec l) as [Hl|Hl].
  - rewrite (coordinates_comment _ _ Hl). cbn [andthen]. destruct (IH ps s Hs) as [H1 H2]. split; [done|]. intros s' E. destruct (H2 _ E) as (ps' & Hps & Hh). exists ps'. split; [by constructor|done].
  - rewrite (coordinates_other _ _ Hl). rewrite (proj1 Hs). destruct (read_position l) as [[[v x] y]|] eqn:E; cbn [andthen]; [|done]. apply read_position_iff in E.
    destruct (N.leb_spec n v) as [|Hv]; cbn [andthen]; [done|]. destruct (position_step n ps s (N.to_nat v) x y Hs ltac:(lia)) as [H1 H2].
    destruct (decide (N.to_nat v ∈ ps.*1.*1)) as [Hin|Hin]; [rewrite (H1 Hin), bind_S; done|]. destruct (H2 Hin) as [-> (s1 & E1 & Hs1)]. rewrite bind_S. rewrite (proj1 Hs) in E1. rewrite E1. cbn [andthen].
    destruct (IH _ _ Hs1) as [H3 H4]. split; [done|]. intros s' E'. destruct (H4 _ E') as (ps' & Hps & Hh). exists ((N.to_nat v, x, y) :: ps'). split; [by constructor|]. by rewrite <- app_assoc in Hh.
Qed.
Lemma lines_accepted n ls ps' : position_lines ls ps' -> forall ps s, holds n ps s -> NoDup (ps ++ ps').*1.*1 -> (forall v, v ∈ ps'.*1.*1 -> v < N.to_nat n) ->
  exists s', coordinates_lines s ls = Some (Ret s') /\ holds n (ps ++ ps') s'.
Proof.
  induction 1 as [|l ls ps' Hl _ IH|p l ls ps' Hl Hp _ IH]; intros ps s Hs Hnd Hlt; cbn [coordinates_lines].
  - exists s. by rewrite app_nil_r.
  - rewrite (coordinates_comment _ _ Hl). cbn [andthen]. by apply IH.
  - destruct p as [[v x] y]. rewrite (coordinates_other _ _ Hl), (proj1 Hs). rewrite <- (Nat2N.id v) in Hp. apply read_position_iff in Hp. rewrite Hp. cbn [andthen].
    assert (v < N.to_nat n) as Hv by (apply Hlt; cbn; by left). destruct (N.leb_spec n (N.of_nat v)) as [|_]; [lia|]. rewrite Nat2N.id.
    destruct (position_step n ps s v x y Hs Hv) as [_ H2]. destruct H2 as [-> (s1 & E1 & Hs1)].
    { intros Hin. rewrite !fmap_app in Hnd. apply NoDup_app in Hnd as (_ & Hd & _). apply (Hd _ Hin). cbn. by left. }
    rewrite bind_S. rewrite (proj1 Hs) in E1. rewrite E1. cbn [andthen]. destruct (IH (ps ++ [(v, x, y)]) s1 Hs1) as (s' & E' & Hs').
    + by rewrite <- app_assoc.
    + intros u Hu. apply Hlt. cbn. by right.
    + exists s'. rewrite <- app_assoc in Hs'. done.
Qed.
Lemma holds_start n : holds n [] (mkKstate (Some n) (replicate (N.to_nat n) 0%Z) (replicate (N.to_nat n) 0%Z) (replicate (N.to_nat n) false)).
Proof.
  unfold holds. cbn [k_count k_lat k_lon k_seen fmap list_fmap]. rewrite !replicate_length. split_and!; try done; [constructor|intros v H; inversion H| |intros v x y H; inversion H].
  intros v b [-> _]%lookup_replicate. split; [done|]. intros H; inversion H.
Qed.
Lemma check_seen_spec n seen : n = length seen -> exists r, check_seen n seen = Some r /\ (r = Ret () <-> Forall (fun b => b = true) seen).
Proof.
  intros ->. unfold check_seen.
  destruct (for_range_inv (fun i r => r = Ret () <-> Forall (fun b => b = true) (take i seen)) (fun i r => andthen (Some r) (fun _ => b ← seen !! i; Some (if b : bool then Ret () else Throw))) 0 (length seen) (Ret ())) as (r & E & Hr).
  - lia.
  - split; [intros _; constructor|done].
  - intros i r Hi Hr. destruct (lookup_lt_is_Some_2 seen i) as [b Hb]; [lia|]. rewrite (take_S_r _ _ _ Hb). destruct r as [[]|]; cbn [andthen].
    + rewrite Hb, bind_S. eexists. split; [done|]. rewrite Forall_app, Forall_singleton. destruct b; [|by split; [|intros [_ ?]]]. split; [|done]. intros _. split; [by apply Hr|done].
    + eexists. split; [done|]. split; [done|]. rewrite Forall_app. intros [H _]. apply Hr in H. done.
  - exists r. split; [exact E|]. by rewrite firstn_all in Hr.
Qed.
Lemma all_seen n ps s : holds n ps s -> Forall (fun b => b = true) (k_seen s) <-> ps.*1.*1 ≡ₚ seq 0 (N.to_nat n).
Proof.
  intros (Hc & L1 & L2 & L3 & Hnd & Hlt & Hs & Hp). rewrite Forall_lookup. split.
  - intros Hall. apply NoDup_Permutation; [done|apply NoDup_seq|]. intros v. rewrite elem_of_seq. split; [intros H; apply Hlt in H; lia|]. intros Hv.
    destruct (lookup_lt_is_Some_2 (k_seen s) v) as [b Hb]; [lia|]. rewrite <- (Hs _ _ Hb). by eapply Hall.
  - intros Hperm v b Hb. rewrite (Hs _ _ Hb), Hperm, elem_of_seq. apply lookup_lt_Some in Hb. lia.
Qed.
Lemma positions_lat n ps lat lon lat' lon' : positions n ps lat lon -> positions n ps lat' lon' -> lat = lat' /\ lon = lon'.
Proof.
  intros (Hp & L1 & L2 & H) (_ & L1' & L2' & H').
  assert (forall v, v < n -> lat !! v = lat' !! v /\ lon !! v = lon' !! v) as Hv.
  { intros v Hv. assert (v ∈ ps.*1.*1) as Hin by (rewrite Hp, elem_of_seq; lia). rewrite <- list_fmap_compose in Hin. apply elem_of_list_fmap in Hin as ([[u x] y] & -> & Hin). cbn.
    destruct (H _ _ _ Hin) as [-> ->], (H' _ _ _ Hin) as [-> ->]. done. }
  split; apply list_eq; intros v; (destruct (decide (v < n)) as [Hlt|Hge]; [apply (Hv v Hlt)|]); rewrite !lookup_ge_None_2 by lia; done.
Qed.

(** ** The program *)
Lemma split_header (lines : list (list N)) : Forall comment_line lines \/ exists cs hd ls, lines = cs ++ hd :: ls /\ Forall comment_line cs /\ ~ comment_line hd.
Proof.
  induction lines as [|l lines IH]; [by left|]. destruct (comment_dec l) as [Hl|Hl].
  - destruct IH as [IH|(cs & hd & ls & -> & Hcs & Hhd)]; [left; by constructor|]. right. exists (l :: cs), hd, ls. split; [done|]. split; [by constructor|done].
  - right. exists [], l, lines. split; [done|]. split; [constructor|done].
Qed.
Lemma coordinates_lines_app s a b : coordinates_lines s (a ++ b) = andthen (coordinates_lines s a) (fun s => coordinates_lines s b).
Proof. revert s. induction a as [|l a IH]; intros s; [done|]. cbn [app coordinates_lines]. destruct (coordinates_line s l) as [[s'|]|]; cbn [andthen]; [apply IH|done|done]. Qed.
Lemma coordinates_comments s ls : Forall comment_line ls -> coordinates_lines s ls = Some (Ret s).
Proof. induction 1 as [|l ls Hl _ IH]; [done|]. cbn [coordinates_lines]. by rewrite (coordinates_comment _ _ Hl). Qed.
Lemma coordinates_undefined encode file : convert_road_dimacs_coordinates encode file = None <-> Forall comment_line (getlines file).
Proof.
  unfold convert_road_dimacs_coordinates. destruct (split_header (getlines file)) as [Hall|(cs & hd & ls & E & Hcs & Hhd)].
  - rewrite (coordinates_comments _ _ Hall). cbn. done.
  - rewrite E, coordinates_lines_app, (coordinates_comments _ _ Hcs). cbn [andthen coordinates_lines]. rewrite (coordinates_other _ _ Hhd). cbn [k_count].
    split; [|intros Hf; exfalso; apply Forall_app in Hf as [_ Hf]; apply Forall_cons in Hf as [Hf _]; done].
    destruct (read_size hd) as [n|]; cbn [andthen]; [|done]. destruct (lines_read n ls _ _ (holds_start n)) as [H1 H2].
    destruct (coordinates_lines _ ls) as [[s|]|]; cbn [andthen]; [|done..]. destruct (H2 s eq_refl) as (ps & _ & Hs). rewrite (proj1 Hs), bind_S.
    destruct (check_seen_spec (N.to_nat n) (k_seen s)) as (r & -> & _); [symmetry; apply Hs|]. by destruct r.
Qed.
Lemma coordinates_accepted encode file f1 f2 : convert_road_dimacs_coordinates encode file = Some (Ret (f1, f2)) <->
  exists n ps lat lon, positions_text n ps file /\ positions n ps lat lon /\ f1 = save_vector encode lat /\ f2 = save_vector encode lon.
Proof.
  unfold convert_road_dimacs_coordinates. split.
  - destruct (split_header (getlines file)) as [Hall|(cs & hd & ls & E & Hcs & Hhd)]; [by rewrite (coordinates_comments _ _ Hall)|].
    rewrite E, coordinates_lines_app, (coordinates_comments _ _ Hcs). cbn [andthen coordinates_lines]. rewrite (coordinates_other _ _ Hhd). cbn [k_count].
    destruct (read_size hd) as [n|] eqn:Eh; cbn [andthen]; [|done]. destruct (lines_read n ls _ _ (holds_start n)) as [_ H2].
    destruct (coordinates_lines _ ls) as [[s|]|]; cbn [andthen]; [|done..]. destruct (H2 s eq_refl) as (ps & Hps & Hs). cbn [app] in Hs. rewrite (proj1 Hs), bind_S.
    destruct (check_seen_spec (N.to_nat n) (k_seen s)) as (r & -> & Hr); [symmetry; apply Hs|]. destruct r as [[]|]; cbn [andthen]; [|done]. intros [= <- <-].
    exists (N.to_nat n), ps, (k_lat s), (k_lon s). split; [|split; [|done]].
    + exists cs, hd, ls. rewrite <- E. split; [apply getlines_lines|]. split; [done|]. split; [done|]. split; [by apply read_size_iff|done].
    + split; [apply (all_seen n ps s Hs); by apply Hr|]. destruct Hs as (_ & L1 & L2 & _ & _ & _ & _ & Hp). done.
  - intros (n & ps & lat & lon & (cs & hd & ls & Hf & Hcs & Hhd & Hsize & Hps) & Hpos & -> & ->). rewrite (getlines_spec _ _ Hf), coordinates_lines_app, (coordinates_comments _ _ Hcs). cbn [andthen coordinates_lines].
    rewrite (coordinates_other _ _ Hhd). cbn [k_count]. rewrite <- (Nat2N.id n) in Hsize. apply read_size_iff in Hsize. rewrite Hsize. cbn [andthen].
    assert (ps.*1.*1 ≡ₚ seq 0 n) as Hperm by apply Hpos.
    destruct (lines_accepted (N.of_nat n) ls ps Hps [] _ (holds_start (N.of_nat n))) as (s & -> & Hs).
    { cbn [app]. rewrite Hperm. apply NoDup_seq. }
    { intros v. rewrite Hperm, elem_of_seq, Nat2N.id. lia. }
    cbn [andthen app] in *. rewrite (proj1 Hs), bind_S. destruct (check_seen_spec (N.to_nat (N.of_nat n)) (k_seen s)) as (r & -> & Hr); [symmetry; apply Hs|].
    assert (r = Ret ()) as ->. { apply Hr, (all_seen _ _ _ Hs). by rewrite Nat2N.id. } cbn [andthen].
    assert (positions n ps (k_lat s) (k_lon s)) as Hpos'. { split; [done|]. destruct Hs as (_ & L1 & L2 & _ & _ & _ & _ & Hp). rewrite Nat2N.id in L1, L2. done. }
    destruct (positions_lat _ _ _ _ _ _ Hpos Hpos') as [-> ->]. done.
Qed.
