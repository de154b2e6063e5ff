(** Correctness of the protobuf decoder. *)
From Verif Require Import Base CchCustomizeProofs ProtobufModel ProtobufSpec.
Ltac Zify.zify_post_hook ::= Z.div_mod_to_equations.

Lemma lor_add n x s : (n < 2 ^ s)%N -> N.lor n (N.shiftl x s) = (n + x * 2 ^ s)%N.
Proof.
  intros H. rewrite <- N.shiftl_mul_pow2. symmetry. rewrite N.add_nocarry_lxor; [symmetry; rewrite N.lxor_lor; [done|]|].
  - apply N.bits_inj. intros i. rewrite N.land_spec, N.bits_0. destruct (N.lt_ge_cases i s); [by rewrite N.shiftl_spec_low, andb_false_r|].
    destruct (decide (n = 0%N)) as [->|]; [by rewrite N.bits_0|]. rewrite N.bits_above_log2; [done|]. apply N.log2_lt_pow2; [lia|]. apply N.lt_le_trans with (2 ^ s)%N; [done|].
    apply N.pow_le_mono_r; lia.
  - apply N.bits_inj. intros i. rewrite N.land_spec, N.bits_0. destruct (N.lt_ge_cases i s); [by rewrite N.shiftl_spec_low, andb_false_r|].
    destruct (decide (n = 0%N)) as [->|]; [by rewrite N.bits_0|]. rewrite N.bits_above_log2; [done|]. apply N.log2_lt_pow2; [lia|]. apply N.lt_le_trans with (2 ^ s)%N; [done|].
    apply N.pow_le_mono_r; lia.
Qed.
Lemma lor_mod n x s : (n < 2 ^ s)%N -> (s < 64)%N -> N.lor n (N.shiftl x s mod 2 ^ 64) = ((n + x * 2 ^ s) mod 2 ^ 64)%N.
Proof.
  intros H Hs. rewrite <- lor_add by done. assert (n < 2 ^ 64)%N as Hn. { apply N.lt_trans with (2 ^ s)%N; [done|]. apply N.pow_lt_mono_r; lia. }
  rewrite <- !N.land_ones, N.land_lor_distr_l. f_equal. rewrite N.land_ones. symmetry. by apply N.mod_small.
Qed.
Lemma testbit7 b : byte b -> N.testbit b 7 = bool_decide (128 <= b)%N.
Proof.
  intros Hb. unfold byte in Hb. rewrite N.testbit_eqb. change (2 ^ 7)%N with 128%N. case_bool_decide; [apply N.eqb_eq|apply N.eqb_neq]; lia.
Qed.
Lemma land127 b : N.land b 127 = (b mod 128)%N.
Proof. change 127%N with (N.ones 7). apply N.land_ones. Qed.
Lemma cont_byte b : cont b -> byte b. Proof. unfold cont, byte. lia. Qed.
Lemma final_byte b : final b -> byte b. Proof. unfold final, byte. lia. Qed.
Lemma pow7 i : (2 ^ N.of_nat (7 * S i) = 128 * 2 ^ N.of_nat (7 * i))%N.
Proof. replace (N.of_nat (7 * S i)) with (7 + N.of_nat (7 * i))%N by lia. by rewrite N.pow_add_r. Qed.
Lemma pow7_pos i : (0 < 2 ^ N.of_nat (7 * i))%N.
Proof. apply N.neq_0_lt_0, N.pow_nonzero. lia. Qed.

(** ** The loop *)
Lemma cont_step b bs n i : cont b -> i < 9 -> (n < 2 ^ N.of_nat (7 * i))%N ->
  varint_loop (b :: bs) n (7 * i) = varint_loop bs (n + (b mod 128) * 2 ^ N.of_nat (7 * i))%N (7 * S i) /\
  (n + (b mod 128) * 2 ^ N.of_nat (7 * i) < 2 ^ N.of_nat (7 * S i))%N.
Proof.
  intros Hb Hi Hn.
  assert (n + b mod 128 * 2 ^ N.of_nat (7 * i) < 2 ^ N.of_nat (7 * S i))%N as Hlt.
  { rewrite pow7. assert (b mod 128 < 128)%N by (apply N.mod_lt; lia). generalize dependent (2 ^ N.of_nat (7 * i))%N. intros p Hp. nia. }
  split; [|done]. cbn [varint_loop]. rewrite testbit7 by by apply cont_byte. rewrite bool_decide_true by (unfold cont in Hb; lia).
  rewrite decide_False by lia. rewrite bool_decide_true by lia. cbn [chk]. bs. rewrite lor_mod by (lia || done). rewrite land127.
  replace (7 * i + 7) with (7 * S i) by lia. f_equal. apply N.mod_small. apply N.lt_le_trans with (2 ^ N.of_nat (7 * S i))%N; [done|]. apply N.pow_le_mono_r; lia.
Qed.
Lemma loop_value cs l rest n i : Forall cont cs -> final l -> i + length cs < 10 -> (n < 2 ^ N.of_nat (7 * i))%N ->
  varint_loop (cs ++ l :: rest) n (7 * i) = Some (Ret ((n + base128 (cs ++ [l]) * 2 ^ N.of_nat (7 * i)) mod 2 ^ 64, rest)%N).
Proof.
  intros Hcs Hl. revert n i. induction Hcs as [|b cs Hb Hcs IH]; intros n i Hi Hn; cbn [app length] in *.
  - cbn [varint_loop base128]. rewrite testbit7 by by apply final_byte. rewrite bool_decide_false by (unfold final in Hl; lia). rewrite bool_decide_true by lia. cbn [chk]. bs.
    rewrite lor_mod by (lia || done). rewrite land127, N.mul_0_r, N.add_0_r. done.
  - destruct (cont_step b (cs ++ l :: rest) n i Hb) as [-> Hn']; [lia|done|]. rewrite IH by (lia || done). cbn [base128]. do 4 f_equal. rewrite pow7. lia.
Qed.
Lemma loop_end cs n i : Forall cont cs -> i + length cs <= 10 -> (n < 2 ^ N.of_nat (7 * i))%N -> varint_loop cs n (7 * i) = Some Throw.
Proof.
  intros Hcs. revert n i. induction Hcs as [|b cs Hb Hcs IH]; intros n i Hi Hn; [done|]. cbn [length] in Hi. destruct (decide (i < 9)).
  - destruct (cont_step b cs n i Hb) as [-> Hn']; [lia|done|]. apply IH; [lia|done].
  - assert (i = 9) by lia. subst i. destruct cs; [|cbn in Hi; lia]. cbn [varint_loop]. rewrite testbit7 by by apply cont_byte.
    rewrite bool_decide_true by (unfold cont in Hb; lia). case_decide; [done|]. cbn. done.
Qed.
Lemma loop_ten cs b r n i : Forall cont cs -> cont b -> i + length cs = 9 -> (n < 2 ^ N.of_nat (7 * i))%N ->
  (forall x, x ∈ r -> byte x) ->
  varint_loop (cs ++ b :: r) n (7 * i) = if decide (b = 129%N /\ r <> []) then None else Some Throw.
Proof.
  intros Hcs. revert n i. induction Hcs as [|b' cs Hb' Hcs IH]; intros n i Hb Hi Hn Hr; cbn [app length] in *.
  - assert (i = 9) by lia. subst i. cbn [varint_loop]. rewrite testbit7 by by apply cont_byte. rewrite bool_decide_true by (unfold cont in Hb; lia).
    case_decide as H1.
    + rewrite decide_False by tauto. done.
    + cbn [chk]. rewrite bool_decide_true by lia. bs. destruct r as [|x r]; [rewrite decide_False by tauto; done|].
      rewrite decide_True by (split; [|done]; destruct (decide (b = 129%N)); [done|tauto]).
      cbn [varint_loop]. rewrite (bool_decide_false (7 * 9 + 7 < 64)) by lia. cbn [chk]. destruct (N.testbit x 7); [|done]. rewrite decide_False by lia. done.
  - destruct (cont_step b' (cs ++ b :: r) n i Hb') as [-> Hn']; [lia|done|]. apply IH; [done|lia|done|done].
Qed.

(** Every byte string starts in one of three ways. *)
Lemma classify bs : Forall byte bs ->
  (exists cs l rest, bs = cs ++ l :: rest /\ Forall cont cs /\ final l /\ length cs < 10) \/
  (Forall cont bs /\ length bs < 10) \/
  (exists cs b r, bs = cs ++ b :: r /\ Forall cont cs /\ cont b /\ length cs = 9).
Proof.
  intros H. assert (forall k, (exists cs l rest, bs = cs ++ l :: rest /\ Forall cont cs /\ final l /\ length cs < k) \/ (Forall cont bs /\ length bs < k) \/
    exists cs r, bs = cs ++ r /\ Forall cont cs /\ length cs = k) as Hk.
  { induction k as [|k IH]; [right; right; by exists [], bs|]. destruct IH as [(cs & l & rest & ? & ? & ? & ?)|[[? ?]|(cs & r & -> & Hcs & Hl)]].
    - left. exists cs, l, rest. split; [done|]. split; [done|]. split; [done|lia].
    - right. left. split; [done|lia].
    - destruct r as [|b r]; [right; left; rewrite app_nil_r; split; [done|lia]|]. apply Forall_app in H as [_ [Hb _]%Forall_cons].
      destruct (decide (b < 128)%N) as [Hf|Hf].
      + left. exists cs, b, r. split; [done|]. split; [done|]. split; [done|lia].
      + right. right. exists (cs ++ [b]), r. rewrite <- app_assoc. split; [done|]. rewrite app_length. split; [|cbn; lia].
        apply Forall_app. split; [done|]. apply Forall_singleton. unfold cont, byte in *. lia. }
  destruct (Hk 10) as [?|[?|(cs & r & -> & Hcs & Hl)]]; [by left|right; by left|]. right. right.
  destruct (exists_last (l := cs)) as (cs' & b & ->); [by intros ->|]. rewrite app_length in Hl. cbn in Hl. apply Forall_app in Hcs as [Hcs1 Hcs2]. apply Forall_cons in Hcs2 as [Hcs2 _].
  exists cs', b, r. rewrite <- app_assoc. split; [done|]. split; [exact Hcs1|]. split; [exact Hcs2|lia].
Qed.

Lemma decode_read c v rest : varint_read c v -> decode_varint (c ++ rest) = Some (Ret (v, rest)).
Proof.
  intros ((cs & l & -> & Hcs & Hl) & Hlen & ->). unfold decode_varint. rewrite app_length in Hlen. cbn in Hlen. rewrite <- app_assoc. cbn [app].
  change 0 with (7 * 0). rewrite loop_value by (done || lia). change (2 ^ N.of_nat (7 * 0))%N with 1%N. by rewrite N.mul_1_r, N.add_0_l.
Qed.
Lemma varint_of_read c v : varint_of c v -> varint_read c v.
Proof. intros (H1 & H2 & <- & H4). split; [done|]. split; [done|]. by rewrite N.mod_small. Qed.

Lemma decode_cases bs : Forall byte bs ->
  (exists c v rest, bs = c ++ rest /\ varint_read c v /\ decode_varint bs = Some (Ret (v, rest))) \/
  (decode_varint bs = Some Throw /\ forall c v rest, bs = c ++ rest -> ~ varint_read c v) \/
  (decode_varint bs = None /\ overlong bs).
Proof.
  intros H.
  destruct (classify bs H) as [(cs & l & rest & -> & Hcs & Hl & Hlen)|[[Hc Hlen]|(cs & b & r & -> & Hcs & Hb & Hlen)]].
  - left. exists (cs ++ [l]), (base128 (cs ++ [l]) mod 2 ^ 64)%N, rest. rewrite <- app_assoc. split; [done|].
    assert (varint_read (cs ++ [l]) (base128 (cs ++ [l]) mod 2 ^ 64)%N) as Hr.
    { split; [by exists cs, l|]. rewrite app_length. cbn. split; [lia|done]. }
    split; [done|]. rewrite <- (decode_read _ _ rest Hr), <- app_assoc. done.
  - right. left. split; [apply (loop_end bs 0 0 Hc); [lia|done]|]. intros c v rest -> (Ht & _). destruct Ht as (cs & l & -> & _ & Hl).
    apply Forall_app in Hc as [Hc _]. apply Forall_app in Hc as [_ Hc]. apply Forall_cons in Hc as [Hc _]. unfold cont, final in *. lia.
  - assert (decode_varint (cs ++ b :: r) = if decide (b = 129%N /\ r <> []) then None else Some Throw) as E.
    { apply (loop_ten cs b r 0 0); [done|done|done|done|]. apply Forall_forall. apply Forall_app in H as [_ [_ ?]%Forall_cons]. done. }
    rewrite E. case_decide as Hd.
    + right. right. split; [done|]. destruct Hd as [-> Hr]. by exists cs, r.
    + right. left. split; [done|]. intros c v rest Hc ((cs' & l & -> & Hcs' & Hl) & Hlen' & _). rewrite app_length in Hlen'. cbn in Hlen'.
      assert ((cs ++ b :: r) !! length cs' = Some l) as Hlk by (rewrite Hc, <- app_assoc; by apply list_lookup_middle).
      assert (length cs' < 9 \/ length cs' = 9) as [Hlt|Heq] by lia.
      * rewrite lookup_app_l in Hlk by lia. rewrite Forall_lookup in Hcs. specialize (Hcs _ _ Hlk). unfold cont, final in *. lia.
      * rewrite list_lookup_middle in Hlk by lia. injection Hlk as ->. unfold cont, final in *. lia.
Qed.
Lemma decode_ret bs v rest : Forall byte bs -> decode_varint bs = Some (Ret (v, rest)) -> exists c, bs = c ++ rest /\ varint_read c v /\ c <> [].
Proof.
  intros H E. destruct (decode_cases bs H) as [(c & v' & rest' & -> & Hr & E')|[[E' _]|[E' _]]]; rewrite E in E'; [|done|done]. injection E' as -> ->.
  exists c. split; [done|]. split; [done|]. destruct Hr as ((cs & l & -> & _) & _). by destruct cs.
Qed.

(** ** The shortest encoding *)
Lemma encode_loop_spec fuel v : (v < 2 ^ N.of_nat (7 * fuel))%N -> fuel <> 0 -> terminated (encode_loop fuel v) /\ length (encode_loop fuel v) <= fuel /\ base128 (encode_loop fuel v) = v.
Proof.
  revert v. induction fuel as [|f IH]; intros v Hv Hf; [done|]. cbn [encode_loop]. case_decide as H.
  - split; [by exists [], v|]. split; [cbn; lia|]. cbn. rewrite N.mod_small by done. lia.
  - destruct (decide (f = 0)) as [->|Hf0]; [change (2 ^ N.of_nat (7 * 1))%N with 128%N in Hv; lia|].
    destruct (IH (v / 128)%N) as ((cs & l & E & Hcs & Hl) & Hlen & Hb); [|done|].
    { rewrite pow7 in Hv. apply N.div_lt_upper_bound; [lia|done]. }
    split; [|split].
    + exists ((128 + v mod 128)%N :: cs), l. rewrite E. split; [done|]. split; [|done]. constructor; [|done]. unfold cont. lia.
    + cbn [length]. lia.
    + cbn [base128]. rewrite Hb. lia.
Qed.
Lemma encode_spec v : (v < 2 ^ 64)%N -> varint_of (encode v) v.
Proof.
  intros H. destruct (encode_loop_spec 10 v) as (H1 & H2 & H3); [|done|split; [done|split; [done|split; done]]].
  apply N.lt_le_trans with (2 ^ 64)%N; [done|]. apply N.pow_le_mono_r; lia.
Qed.

(** ** zigzag *)
Lemma testbit0 x : N.testbit x 0 = bool_decide (x mod 2 = 1)%N.
Proof. rewrite N.testbit_eqb. change (2 ^ 0)%N with 1%N. rewrite N.div_1_r. case_bool_decide; [by apply N.eqb_eq|by apply N.eqb_neq]. Qed.
Lemma zigzag_div x : zigzag x = if bool_decide (x mod 2 = 1)%N then (- Z.of_N (x / 2) - 1)%Z else Z.of_N (x / 2).
Proof. unfold zigzag. rewrite testbit0. change 1%N with (1%N) at 2. rewrite N.shiftr_div_pow2. done. Qed.
Lemma zigzag_inverse z : zigzag (zigzag_encode z) = z.
Proof. rewrite zigzag_div. unfold zigzag_encode. case_decide; case_bool_decide; lia. Qed.
Lemma zigzag_encode_range z : (- 2 ^ 63 <= z < 2 ^ 63)%Z <-> (zigzag_encode z < 2 ^ 64)%N.
Proof. unfold zigzag_encode. change (2 ^ 63)%Z with 9223372036854775808%Z. change (2 ^ 64)%N with 18446744073709551616%N. case_decide; lia. Qed.
Lemma zigzag_encode_inverse x : zigzag_encode (zigzag x) = x.
Proof. rewrite zigzag_div. unfold zigzag_encode. case_bool_decide; case_decide; lia. Qed.

(** ** The walk *)
Lemma header_id h : N.shiftr h 3 = (h / 8)%N. Proof. by rewrite N.shiftr_div_pow2. Qed.
Lemma header_type h : N.land h 7 = (h mod 8)%N. Proof. change 7%N with (N.ones 3). by rewrite N.land_ones. Qed.
Lemma read_nonempty c v : varint_read c v -> c <> [].
Proof. intros ((cs & l & -> & _) & _). by destruct cs. Qed.
Lemma field_nonempty f e : field varint_read f e -> f <> [].
Proof. intros H. destruct H as [h ? ? ? H _|h ? ? H _|h ? ? H _|h ? ? ? H _]; apply read_nonempty in H; by destruct h. Qed.

(** One round on a string that starts with a field. *)
Lemma walk_field fuel f e bs : field varint_read f e -> walk_loop (S fuel) (f ++ bs) = '(es, ok) ← walk_loop fuel bs; Some (e :: es, ok).
Proof.
  intros H. pose proof (field_nonempty _ _ H) as Hne. cbn [walk_loop]. destruct (f ++ bs) as [|x xs] eqn:E; [by destruct f|]. rewrite <- E. clear E x xs.
  destruct H as [h c id v Hh Hc|h id d Hh Hd|h id d Hh Hd|h c id s Hh Hc]; rewrite <- !app_assoc, (decode_read _ _ _ Hh), bind_S, header_id, header_type.
  - replace (8 * id / 8)%N with id by lia. replace (8 * id mod 8)%N with 0%N by lia. rewrite (decode_read _ _ _ Hc), bind_S. done.
  - replace ((8 * id + 1) / 8)%N with id by lia. replace ((8 * id + 1) mod 8)%N with 1%N by lia.
    rewrite decide_False by (rewrite app_length; lia). rewrite <- Hd, drop_app, take_app. done.
  - replace ((8 * id + 5) / 8)%N with id by lia. replace ((8 * id + 5) mod 8)%N with 5%N by lia.
    rewrite decide_False by (rewrite app_length; lia). rewrite <- Hd, drop_app, take_app. done.
  - replace ((8 * id + 2) / 8)%N with id by lia. replace ((8 * id + 2) mod 8)%N with 2%N by lia. rewrite (decode_read _ _ _ Hc), bind_S.
    rewrite decide_False by (rewrite app_length; lia). rewrite Nat2N.id, drop_app, take_app. done.
Qed.

(** One round on any other string. *)
Definition walk_stuck (bs : list N) : Prop := forall f e rest, bs = f ++ rest -> ~ field varint_read f e.
(** the second varint of the field is the overlong one *)
Definition late_overlong (bs : list N) : Prop := overlong bs \/ exists h v r, bs = h ++ r /\ varint_read h v /\ (v mod 8 = 0 \/ v mod 8 = 2)%N /\ overlong r.
Lemma read_prefix c c' v v' r r' : varint_read c v -> varint_read c' v' -> c ++ r = c' ++ r' -> c = c' /\ v = v' /\ r = r'.
Proof.
  intros H H' E. pose proof (decode_read _ _ r H) as D. pose proof (decode_read _ _ r' H') as D'. rewrite E in D. rewrite D in D'. injection D' as -> ->.
  split; [|done]. by apply app_inv_tail in E.
Qed.
Lemma walk_step fuel bs : Forall byte bs -> bs <> [] ->
  (exists f e rest, bs = f ++ rest /\ field varint_read f e) \/
  (walk_loop (S fuel) bs = Some ([], false) /\ walk_stuck bs) \/
  (walk_loop (S fuel) bs = None /\ late_overlong bs).
Proof.
  intros H Hne. destruct (decode_cases bs H) as [(h & v & r & -> & Hh & E)|[[E Hno]|[E Ho]]].
  2:{ right. left. split; [cbn [walk_loop]; destruct bs; [done|]; by rewrite E|]. intros f e rest -> Hf.
      destruct Hf as [h c ? ? Hh Hc|h ? d Hh Hd|h ? d Hh Hd|h c ? s Hh Hc]; rewrite <- ?app_assoc in Hno; by eapply Hno. }
  2:{ right. right. split; [cbn [walk_loop]; destruct bs; [done|]; by rewrite E|by left]. }
  apply Forall_app in H as [Hhb Hr].
  assert (forall R : option (list event * bool), (r0 ← decode_varint (h ++ r);
          match r0 with
          | Throw => Some ([], false)
          | Ret (header, bs) => R
          end) = R) as HR.
  { intros R. by rewrite E. }
  assert (walk_loop (S fuel) (h ++ r) = match (v mod 8)%N with
              | 0%N =>
                  r ← decode_varint r;
                  match r with
                  | Throw => Some ([], false)
                  | Ret (w, bs) => '(es, ok) ← walk_loop fuel bs; Some (EVarint (v / 8) w :: es, ok)
                  end
              | 1%N =>
                  if decide (length r < 8) then Some ([], false)
                  else '(es, ok) ← walk_loop fuel (drop 8 r); Some (EDouble (v / 8) (take 8 r) :: es, ok)
              | 5%N =>
                  if decide (length r < 4) then Some ([], false)
                  else '(es, ok) ← walk_loop fuel (drop 4 r); Some (EFloat (v / 8) (take 4 r) :: es, ok)
              | 2%N =>
                  r ← decode_varint r;
                  match r with
                  | Throw => Some ([], false)
                  | Ret (len, bs) =>
                      if decide (N.of_nat (length bs) < len)%N then Some ([], false)
                      else '(es, ok) ← walk_loop fuel (drop (N.to_nat len) bs); Some (EString (v / 8) (take (N.to_nat len) bs) :: es, ok)
                  end
              | _ => Some ([], false)
              end) as EW.
  { cbn [walk_loop]. destruct (h ++ r) as [|x xs] eqn:Ex; [done|]. rewrite <- Ex in *. rewrite E, bind_S, header_id, header_type. done. }
  assert (forall f e rest, h ++ r = f ++ rest -> field varint_read f e ->
    (exists w c, (v mod 8 = 0)%N /\ varint_read c w /\ r = c ++ rest) \/ ((v mod 8 = 1)%N /\ 8 <= length r) \/ ((v mod 8 = 5)%N /\ 4 <= length r) \/
    (exists c s, (v mod 8 = 2)%N /\ varint_read c (N.of_nat (length s)) /\ r = c ++ s ++ rest)) as Hinv.
  { intros f e rest Ef Hf. destruct Hf as [h' c id w Hh' Hc|h' id d Hh' Hd|h' id d Hh' Hd|h' c id s Hh' Hc]; rewrite <- !app_assoc in Ef;
      destruct (read_prefix _ _ _ _ _ _ Hh Hh' Ef) as (-> & -> & ->).
    - left. exists w, c. split; [lia|]. done.
    - right. left. rewrite app_length. lia.
    - right. right. left. rewrite app_length. lia.
    - right. right. right. exists c, s. split; [lia|]. done. }
  assert (v = 8 * (v / 8) + v mod 8)%N as Ev by lia.
  assert (v mod 8 < 8)%N as H8 by (apply N.mod_lt; lia).
  rewrite EW. clear HR EW.
  destruct (decide (v mod 8 = 0)%N) as [E0|]; [|destruct (decide (v mod 8 = 1)%N) as [E1|]; [|destruct (decide (v mod 8 = 5)%N) as [E5|]; [|destruct (decide (v mod 8 = 2)%N) as [E2|]]]].
  - rewrite E0. destruct (decode_cases r Hr) as [(c & w & rest & -> & Hc & _)|[[E' Hno]|[E' Ho]]].
    + left. exists (h ++ c), (EVarint (v / 8) w), rest. rewrite <- app_assoc. split; [done|]. constructor; [|done]. by replace (8 * (v / 8))%N with v by lia.
    + right. left. rewrite E'. split; [done|]. intros f e rest Ef Hf. destruct (Hinv _ _ _ Ef Hf) as [(w & c & _ & Hc & Er)|[[? _]|[[? _]|(? & ? & ? & _)]]]; [|lia|lia|lia].
      by eapply Hno.
    + right. right. rewrite E'. split; [done|]. right. exists h, v, r. split; [done|]. split; [done|]. split; [by left|done].
  - rewrite E1. case_decide as Hlen.
    + right. left. split; [done|]. intros f e rest Ef Hf. destruct (Hinv _ _ _ Ef Hf) as [(? & ? & ? & _)|[[_ ?]|[[? _]|(? & ? & ? & _)]]]; lia.
    + left. exists (h ++ take 8 r), (EDouble (v / 8) (take 8 r)), (drop 8 r). rewrite <- app_assoc, take_drop. split; [done|]. constructor; [by replace (8 * (v / 8) + 1)%N with v by lia|].
      rewrite take_length. lia.
  - rewrite E5. case_decide as Hlen.
    + right. left. split; [done|]. intros f e rest Ef Hf. destruct (Hinv _ _ _ Ef Hf) as [(? & ? & ? & _)|[[? _]|[[_ ?]|(? & ? & ? & _)]]]; lia.
    + left. exists (h ++ take 4 r), (EFloat (v / 8) (take 4 r)), (drop 4 r). rewrite <- app_assoc, take_drop. split; [done|]. constructor; [by replace (8 * (v / 8) + 5)%N with v by lia|].
      rewrite take_length. lia.
  - rewrite E2. destruct (decode_cases r Hr) as [(c & w & rest & -> & Hc & Ec)|[[E' Hno]|[E' Ho]]].
    + rewrite Ec, bind_S. case_decide as Hlen.
      * right. left. split; [done|]. intros f e rest' Ef Hf. destruct (Hinv _ _ _ Ef Hf) as [(? & ? & ? & _)|[[? _]|[[? _]|(c' & s & _ & Hc' & Er)]]]; [lia|lia|lia|].
        destruct (read_prefix _ _ _ _ _ _ Hc Hc' Er) as (-> & -> & ->). rewrite app_length in Hlen. lia.
      * left. exists (h ++ c ++ take (N.to_nat w) rest), (EString (v / 8) (take (N.to_nat w) rest)), (drop (N.to_nat w) rest). rewrite <- !app_assoc, take_drop. split; [done|].
        constructor; [by replace (8 * (v / 8) + 2)%N with v by lia|]. rewrite take_length. by replace (N.of_nat (N.to_nat w `min` length rest)) with w by lia.
    + right. left. rewrite E'. split; [done|]. intros f e rest Ef Hf. destruct (Hinv _ _ _ Ef Hf) as [(? & ? & ? & _)|[[? _]|[[? _]|(c & s & _ & Hc & Er)]]]; [lia|lia|lia|].
      by eapply Hno.
    + right. right. rewrite E'. split; [done|]. right. exists h, v, r. split; [done|]. split; [done|]. split; [by right|done].
  - right. left. split; [assert (v mod 8 = 3 \/ v mod 8 = 4 \/ v mod 8 = 6 \/ v mod 8 = 7)%N as [->|[->|[->| ->]]] by lia; done|].
    intros f e rest Ef Hf. destruct (Hinv _ _ _ Ef Hf) as [(? & ? & ? & _)|[[? _]|[[? _]|(? & ? & ? & _)]]]; lia.
Qed.

Lemma walk_cases fuel bs : length bs <= fuel -> Forall byte bs ->
  exists pre es rest, bs = pre ++ rest /\ message varint_read pre es /\
   ((rest = [] /\ walk_loop fuel bs = Some (es, true)) \/
    (rest <> [] /\ walk_stuck rest /\ walk_loop fuel bs = Some (es, false)) \/
    (late_overlong rest /\ walk_loop fuel bs = None)).
Proof.
  revert bs. induction fuel as [|fuel IH]; intros bs Hl Hb.
  { destruct bs; [|cbn in Hl; lia]. exists [], [], []. split; [done|]. split; [constructor|]. left. done. }
  destruct (decide (bs = [])) as [->|Hne]; [exists [], [], []; split; [done|]; split; [constructor|]; left; done|].
  destruct (walk_step fuel bs Hb Hne) as [(f & e & r & -> & Hf)|[[E Hs]|[E Ho]]].
  - rewrite (walk_field fuel f e r Hf). apply Forall_app in Hb as [_ Hr]. pose proof (field_nonempty _ _ Hf). destruct f as [|x f]; [done|].
    destruct (IH r) as (pre & es & rest & -> & Hm & Hc); [rewrite app_length in Hl; cbn in Hl; lia|done|].
    exists ((x :: f) ++ pre), (e :: es), rest. rewrite <- app_assoc. split; [done|]. split; [by constructor|].
    destruct Hc as [[? ->]|[(? & ? & ->)|[? ->]]]; [left|right; left|right; right]; done.
  - exists [], [], bs. split; [done|]. split; [constructor|]. right. left. done.
  - exists [], [], bs. split; [done|]. split; [constructor|]. right. right. done.
Qed.
Lemma walk_complete fuel bs es : length bs <= fuel -> message varint_read bs es -> walk_loop fuel bs = Some (es, true).
Proof.
  intros Hl H. revert fuel Hl. induction H as [|f e bs es Hf H IH]; intros fuel Hl; [by destruct fuel|].
  pose proof (field_nonempty _ _ Hf). destruct f as [|x f]; [done|]. rewrite app_length in Hl. cbn in Hl. destruct fuel as [|fuel]; [lia|].
  rewrite (walk_field fuel _ e bs Hf), IH by lia. done.
Qed.
Lemma message_mono (R S : list N -> N -> Prop) bs es : (forall c v, R c v -> S c v) -> message R bs es -> message S bs es.
Proof. intros HRS H. induction H as [|f e bs es Hf H IH]; constructor; [|done]. destruct Hf; constructor; auto. Qed.
