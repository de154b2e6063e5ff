From Verif Require Import Base TextModel TextSpec.
Ltac Zify.zify_post_hook ::= idtac.

(** ** Lines *)
Lemma getlines_line line l input : 10%N ∉ l -> getlines_from line (l ++ 10%N :: input) = (rev line ++ l) :: getlines_from [] input.
Proof.
  revert line. induction l as [|c l IH]; intros line Hl; cbn [app getlines_from].
  - rewrite N.eqb_refl. by rewrite app_nil_r.
  - rewrite not_elem_of_cons in Hl. destruct Hl as [Hc Hl]. destruct (N.eqb_spec c 10) as [->|_]; [done|]. rewrite (IH _ Hl). cbn [rev]. by rewrite <- app_assoc.
Qed.
Lemma getlines_end line l : 10%N ∉ l -> rev line ++ l <> [] -> getlines_from line l = [rev line ++ l].
Proof.
  revert line. induction l as [|c l IH]; intros line Hl Hne; cbn [getlines_from].
  - rewrite app_nil_r in *. destruct line; [done|]. done.
  - rewrite not_elem_of_cons in Hl. destruct Hl as [Hc Hl]. destruct (N.eqb_spec c 10) as [->|_]; [done|]. rewrite (IH _ Hl); cbn [rev]; rewrite <- app_assoc; [done|]. by destruct (rev line).
Qed.
Lemma getlines_app ls rest : Forall (fun l => 10%N ∉ l) ls -> getlines (concat ((fun l => l ++ [10%N]) <$> ls) ++ rest) = ls ++ getlines rest.
Proof.
  unfold getlines. induction 1 as [|l ls Hl _ IH]; [done|]. cbn [fmap list_fmap concat app]. rewrite <- !app_assoc. cbn [app]. rewrite (getlines_line [] l _ Hl). cbn [rev app]. f_equal. done.
Qed.
Lemma getlines_spec lines file : lines_of lines file -> getlines file = lines.
Proof.
  intros [Hl [-> |(init & last & -> & Hne & ->)]].
  - rewrite <- (app_nil_r (concat _)), (getlines_app _ _ Hl). by rewrite app_nil_r.
  - apply Forall_app in Hl as [Hi Hlast]. apply Forall_cons in Hlast as [Hlast _]. rewrite (getlines_app _ _ Hi). f_equal. unfold getlines. exact (getlines_end [] last Hlast Hne).
Qed.

(** ** Words and numbers *)
Definition stops (f : N -> bool) (l : list N) : Prop := match l with [] => True | c :: _ => f c = false end.
Lemma span_app f a b : Forall (fun c => f c = true) a -> stops f b -> span f (a ++ b) = (a, b).
Proof.
  intros Ha Hb. induction Ha as [|c a Hc _ IH]; cbn [app span].
  - destruct b as [|c b]; [done|]. cbn [stops] in Hb. cbn [span]. by rewrite Hb.
  - by rewrite Hc, IH.
Qed.
Lemma blanks_space b : blanks b -> Forall (fun c => is_space c = true) b.
Proof. intros H. eapply Forall_impl; [exact H|]. by intros c [-> | ->]. Qed.
Lemma skip_blanks b l : blanks b -> stops is_space l -> skip_spaces (b ++ l) = l.
Proof. intros Hb Hl. unfold skip_spaces. by rewrite (span_app _ _ _ (blanks_space _ Hb) Hl). Qed.
Lemma read_word_spec b w rest : blanks b -> w <> [] -> Forall (fun c => is_space c = false) w -> match rest with [] => True | c :: _ => is_space c = true end ->
  read_word (b ++ w ++ rest) = Some (w, rest).
Proof.
  intros Hb Hw Hf Hr. unfold read_word. rewrite skip_blanks; [|done|destruct w as [|c w]; [done|]; by apply Forall_cons in Hf as [? _]].
  rewrite span_app; [by destruct w| |].
  - eapply Forall_impl; [exact Hf|]. cbn. by intros c ->.
  - destruct rest; [done|]. cbn [stops]. by rewrite Hr.
Qed.
Lemma read_word_first w rest : w <> [] -> Forall (fun c => is_space c = false) w -> match rest with [] => True | c :: _ => is_space c = true end -> read_word (w ++ rest) = Some (w, rest).
Proof. intros. apply (read_word_spec [] w rest); [constructor|done..]. Qed.
Lemma read_word_none b : blanks b -> read_word b = None.
Proof. intros Hb. unfold read_word. rewrite <- (app_nil_r b), skip_blanks; done. Qed.
Lemma digits_value_app a d : digits_value (a ++ [d]) = (10 * digits_value a + (d - 48))%N.
Proof. unfold digits_value. by rewrite fold_left_app. Qed.
Lemma is_digit_spec c : is_digit c = true <-> (48 <= c <= 57)%N.
Proof. unfold is_digit. rewrite andb_true_iff, !N.leb_le. done. Qed.
Lemma numeral_value ds x : numeral ds x -> ds <> [] /\ Forall (fun c => is_digit c = true) ds /\ digits_value ds = x.
Proof.
  induction 1 as [d Hd|ds x d _ (H1 & H2 & H3) Hd].
  - split; [done|]. split; [apply Forall_singleton, is_digit_spec; lia|]. unfold digits_value. cbn [fold_left]. lia.
  - split; [by destruct ds|]. split; [apply Forall_app; split; [done|]; apply Forall_singleton, is_digit_spec; lia|]. rewrite digits_value_app, H3. lia.
Qed.
Lemma digit_not_space c : is_digit c = true -> is_space c = false.
Proof. rewrite is_digit_spec. intros H. unfold is_space. destruct (N.eqb_spec c 32); [lia|]. destruct (N.leb_spec 9 c); [|lia]. destruct (N.leb_spec c 13); [lia|done]. Qed.
Lemma space_not_digit c : is_space c = true -> is_digit c = false.
Proof. intros H. destruct (is_digit c) eqn:E; [|done]. by rewrite (digit_not_space _ E) in H. Qed.
Lemma read_unsigned_spec bits b ds x rest : blanks b -> numeral ds x -> (x < 2 ^ bits)%N -> stops is_digit rest -> read_unsigned bits (b ++ ds ++ rest) = Some (x, rest).
Proof.
  intros Hb Hn Hx Hr. destruct (numeral_value _ _ Hn) as (H1 & H2 & H3). destruct ds as [|c ds]; [done|]. pose proof H2 as [Hc _]%Forall_cons.
  unfold read_unsigned. rewrite skip_blanks; [|done|cbn; by apply digit_not_space]. apply is_digit_spec in Hc. cbn [app].
  destruct (N.eqb_spec c 45); [lia|]. destruct (N.eqb_spec c 43); [lia|]. change (c :: ds ++ rest) with ((c :: ds) ++ rest). rewrite (span_app _ _ _ H2 Hr), H3.
  by destruct (N.ltb_spec x (2 ^ bits)); [|lia].
Qed.
Lemma gap_stops g rest : gap g -> stops is_digit (g ++ rest) /\ match g ++ rest with [] => True | c :: _ => is_space c = true end.
Proof. intros [Hne Hb]. destruct g as [|c g]; [done|]. apply Forall_cons in Hb as [Hc _]. cbn. by destruct Hc as [-> | ->]. Qed.
Lemma blanks_stops b : blanks b -> stops is_digit b.
Proof. intros H. destruct b as [|c b]; [done|]. apply Forall_cons in H as [[-> | ->] _]; done. Qed.

(** ** Printing *)
Lemma print_digits_spec fuel : forall x acc, (x < 10 ^ N.of_nat fuel)%N -> 0 < fuel -> exists ds, print_digits fuel x acc = ds ++ acc /\ numeral ds x.
Proof.
  induction fuel as [|fuel IH]; intros x acc Hx Hf; [lia|]. cbn [print_digits]. pose proof (N.div_mod' x 10) as Hdm. pose proof (N.mod_lt x 10 ltac:(done)) as Hm.
  destruct (N.eqb_spec (x / 10) 0) as [E|E].
  - exists [(48 + x mod 10)%N]. split; [done|]. rewrite E in Hdm. replace x with (x mod 10)%N at 2 by lia. by constructor.
  - assert (x / 10 < 10 ^ N.of_nat fuel)%N as Hlt. { rewrite Nat2N.inj_succ, N.pow_succ_r' in Hx. apply N.div_lt_upper_bound; lia. }
    destruct (IH (x / 10)%N ((48 + x mod 10)%N :: acc) Hlt) as (ds & -> & Hn).
    { destruct fuel; [|lia]. cbn in Hlt. change (10 ^ 0)%N with 1%N in Hlt. lia. }
    exists (ds ++ [(48 + x mod 10)%N]). split; [by rewrite <- app_assoc|]. rewrite Hdm at 2. by constructor.
Qed.
Lemma print_unsigned_spec x : (x < 2 ^ 64)%N -> numeral (print_unsigned x) x.
Proof.
  intros Hx. destruct (print_digits_spec 20 x []) as (ds & E & Hn); [|lia|].
  - change (10 ^ N.of_nat 20)%N with 100000000000000000000%N. change (2 ^ 64)%N with 18446744073709551616%N in Hx. lia.
  - rewrite app_nil_r in E. unfold print_unsigned. by rewrite E.
Qed.
Lemma numeral_no_newline ds x : numeral ds x -> 10%N ∉ ds.
Proof. intros H Hin. destruct (numeral_value _ _ H) as (_ & Hf & _). rewrite Forall_forall in Hf. specialize (Hf _ Hin). done. Qed.
