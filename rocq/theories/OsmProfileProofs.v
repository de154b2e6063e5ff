(** Speed limits (C51). *)
From Coq Require Import Ascii String.
From Verif Require Import Base OsmGraphModel OsmProfileModel OsmProfileSpec.
Ltac Zify.zify_post_hook ::= idtac.

(** ** The copy *)
(** The text [t] and a zero from position [i] on. *)
Definition holds (buf : list N) (i : nat) (t : list N) : Prop :=
  Forall (fun c => c <> 0%N) t /\ forall k c, (t ++ [0%N]) !! k = Some c -> buf !! (i + k) = Some c.

Lemma copy_lower_spec inp out pos e : Forall (fun c => c <> 0%N) inp -> pos <= e -> e < length out ->
  exists out', copy_lower inp out pos e = Some out' /\ length out' = length out /\ (forall k, k < pos -> out' !! k = out !! k) /\ holds out' pos (map lower (take (e - pos) inp)).
Proof.
  revert out pos. induction inp as [|c inp IH]; intros out pos Hz Hpe He; cbn [copy_lower].
  - rewrite (wr_Some out) by lia. eexists. split; [done|]. split; [by rewrite insert_length|]. split; [intros k Hk; apply list_lookup_insert_ne; lia|].
    rewrite take_nil. split; [constructor|]. intros [|k] c Hc; [|done]. cbn in Hc. injection Hc as <-. rewrite Nat.add_0_r. apply list_lookup_insert. lia.
  - apply Forall_cons in Hz as [Hc Hz]. case_decide as Hpos.
    + rewrite (wr_Some out) by lia. eexists. split; [done|]. split; [by rewrite insert_length|]. split; [intros k Hk; apply list_lookup_insert_ne; lia|].
      replace (e - pos) with 0 by lia. split; [constructor|]. intros [|k] d Hd; [|done]. cbn in Hd. injection Hd as <-. rewrite Nat.add_0_r. apply list_lookup_insert. lia.
    + rewrite (wr_Some out) by lia. rewrite bind_S.
      destruct (IH (<[pos := lower c]> out) (S pos)) as (out' & -> & Hl & Hpre & Hh); [done|lia|rewrite insert_length; lia|]. rewrite insert_length in Hl.
      exists out'. split; [done|]. split; [done|]. split.
      * intros k Hk. rewrite Hpre by lia. apply list_lookup_insert_ne. lia.
      * destruct (e - pos) as [|n] eqn:En; [lia|]. replace (e - S pos) with n in Hh by lia. destruct Hh as [Hh1 Hh2]. cbn [take map]. split.
        -- constructor; [|done]. unfold lower. case_bool_decide; lia.
        -- intros [|k] d Hd; cbn in Hd.
           ++ injection Hd as <-. rewrite Nat.add_0_r, Hpre by lia. apply list_lookup_insert. lia.
           ++ replace (pos + S k) with (S pos + k) by lia. by apply Hh2.
Qed.

Lemma holds_tail buf i c t : holds buf i (c :: t) -> c <> 0%N /\ buf !! i = Some c /\ holds buf (S i) t.
Proof.
  intros [H1 H2]. apply Forall_cons in H1 as [Hc H1]. split; [done|]. split.
  - specialize (H2 0 c eq_refl). by rewrite Nat.add_0_r in H2.
  - split; [done|]. intros k d Hd. specialize (H2 (S k) d Hd). by replace (S i + k) with (i + S k) by lia.
Qed.
Lemma holds_nil buf i : holds buf i [] -> buf !! i = Some 0%N.
Proof. intros [_ H]. specialize (H 0 0%N eq_refl). by rewrite Nat.add_0_r in H. Qed.
Lemma holds_length buf i t : holds buf i t -> i + length t < length buf.
Proof. intros [_ H]. eapply lookup_lt_Some. apply (H (length t) 0%N). rewrite lookup_app_r by lia. by rewrite Nat.sub_diag. Qed.

(** ** Splitting *)
Lemma c_string_at_spec t fuel buf i : holds buf i t -> length t < fuel -> c_string_at fuel buf i = Some t.
Proof.
  revert fuel i. induction t as [|c t IH]; intros [|fuel] i Hh Hf; [cbn in Hf; lia| |cbn in Hf; lia|]; cbn [c_string_at].
  - by rewrite (holds_nil _ _ Hh), bind_S.
  - apply holds_tail in Hh as (Hc & Hi & Hh). rewrite Hi, bind_S, decide_False by done. cbn in Hf. by rewrite IH by (done || lia).
Qed.
Lemma skip_spaces_spec t fuel buf i : holds buf i t -> length t < fuel ->
  exists j, skip_spaces fuel buf i = Some j /\ i <= j /\ holds buf j (without_spaces t).
Proof.
  revert fuel i. induction t as [|c t IH]; intros [|fuel] i Hh Hf; [cbn in Hf; lia| |cbn in Hf; lia|]; cbn [skip_spaces without_spaces].
  - rewrite (holds_nil _ _ Hh), bind_S. rewrite decide_False by done. by exists i.
  - pose proof Hh as Hh'. apply holds_tail in Hh as (Hc & Hi & Hh). rewrite Hi, bind_S. cbn in Hf. case_decide as Hs.
    + rewrite bool_decide_eq_true_2 by done. destruct (IH fuel (S i)) as (j & -> & Hj & H); [done|lia|]. exists j. split; [done|]. split; [lia|done].
    + rewrite bool_decide_eq_false_2 by done. by exists i.
Qed.

(** The first field and what follows the separator. *)
Lemma fields_cons t : exists f rest, fields t = f :: match rest with Some t' => fields t' | None => [] end /\
  (59%N ∉ f) /\ t = f ++ match rest with Some t' => 59%N :: t' | None => [] end.
Proof.
  induction t as [|c t (f & rest & Hf & Hn & ->)]; [exists [], None; split_and!; [done| |done]; by intros ?%elem_of_nil|]. cbn [fields]. rewrite Hf. case_bool_decide as Hc.
  - subst c. exists [], (Some (f ++ match rest with Some t' => 59%N :: t' | None => [] end)). split_and!; [by rewrite Hf|by intros ?%elem_of_nil|done].
  - exists (c :: f), rest. split_and!; [done| |done]. intros [?|?]%elem_of_cons; [by subst|done].
Qed.
Lemma find_separator_spec f r fuel buf i : holds buf i (f ++ r) -> 59%N ∉ f -> match r with c :: _ => c = 59%N | [] => True end -> length f < fuel ->
  find_separator fuel buf i = Some (i + length f) /\ buf !! (i + length f) = Some (match r with c :: _ => c | [] => 0%N end).
Proof.
  revert fuel i. induction f as [|c f IH]; intros [|fuel] i Hh Hn Hr Hf; [cbn in Hf; lia| |cbn in Hf; lia|]; cbn [find_separator length].
  - rewrite Nat.add_0_r. destruct r as [|c r].
    + rewrite (holds_nil _ _ Hh), bind_S. rewrite decide_False by (intros [? _]; done). done.
    + apply holds_tail in Hh as (Hc & Hi & _). rewrite Hi, bind_S. subst c. rewrite decide_False by (intros [_ ?]; done). done.
  - cbn [app] in Hh. apply holds_tail in Hh as (Hc & Hi & Hh). rewrite Hi, bind_S. rewrite elem_of_cons in Hn. rewrite decide_True by (split; [done|]; intros ->; apply Hn; by left).
    replace (i + S (length f)) with (S i + length f) by lia. apply IH; [done|tauto|done|cbn in Hf; lia].
Qed.
Lemma without_spaces_idem t : without_spaces (without_spaces t) = without_spaces t.
Proof. induction t as [|c t IH]; [done|]. cbn. case_bool_decide as Hc; [done|]. cbn. by rewrite bool_decide_eq_false_2. Qed.
Lemma fields_without t : fields (without_spaces t) = match fields t with f :: fs => without_spaces f :: fs | [] => [] end.
Proof.
  induction t as [|c t IH]; [done|]. cbn [without_spaces]. case_bool_decide as Hc.
  - subst c. rewrite IH. cbn [fields]. destruct (fields_cons t) as (f & rest & -> & _ & _). cbn. done.
  - cbn [fields]. destruct (fields_cons t) as (f & rest & -> & _ & _). case_bool_decide; [done|]. cbn. by rewrite bool_decide_eq_false_2.
Qed.
Lemma values_without t : values (without_spaces t) = values t.
Proof. unfold values. rewrite fields_without. destruct (fields t) as [|f fs]; [done|]. cbn. by rewrite without_spaces_idem. Qed.
Lemma without_spaces_length t : length (without_spaces t) <= length t.
Proof. induction t as [|c t IH]; [done|]. cbn. case_bool_decide; cbn; lia. Qed.

Lemma split_loop_spec {A} (f : list N -> A -> A) fuel t buf i s : holds buf i t -> without_spaces t = t -> length t < fuel ->
  split_loop fuel f buf i s = Some (foldl (fun s v => f v s) s (values t)).
Proof.
  revert t buf i s. induction fuel as [|fuel IH]; intros t buf i s Hh Hw Hf; [lia|]. cbn [split_loop].
  destruct (fields_cons t) as (fl & rest & Hfl & Hn & Et). pose proof (holds_length _ _ _ Hh) as Hlen.
  assert (without_spaces fl = fl) as Hwf.
  { subst t. destruct fl as [|c fl]; [done|]. cbn in Hw |- *. case_bool_decide as Hc; [|done]. exfalso.
    pose proof (f_equal length Hw) as Hl. pose proof (without_spaces_length (fl ++ match rest with Some t' => 59%N :: t' | None => [] end)). cbn in Hl. lia. }
  assert (values t = fl :: match rest with Some t' => values t' | None => [] end) as Hv.
  { unfold values. rewrite Hfl. cbn [map]. rewrite Hwf. by destruct rest. }
  rewrite Hv. destruct rest as [t'|].
  - pose proof Hh as Hh'. rewrite Et in Hh'. destruct (find_separator_spec fl (59%N :: t') (S (length buf)) buf i Hh' Hn eq_refl) as [-> Hj].
    { subst t. rewrite app_length in Hlen. cbn in Hlen. lia. }
    rewrite bind_S, Hj, bind_S, decide_False by done. assert (length t = length fl + S (length t')) as Hlt by (by rewrite Et, app_length).
    rewrite (wr_Some buf) by lia. rewrite bind_S. destruct Hh' as [Hz Hlk]. apply Forall_app in Hz as [Hz1 Hz2]. apply Forall_cons in Hz2 as [_ Hz2].
    assert (holds (<[i + length fl := 0%N]> buf) i fl) as Hh1.
    { split; [done|]. intros k c Hc. destruct (decide (k = length fl)) as [->|Hk].
      - rewrite lookup_app_r, Nat.sub_diag in Hc by lia. injection Hc as <-. apply list_lookup_insert. lia.
      - rewrite list_lookup_insert_ne by lia. apply Hlk. pose proof (lookup_lt_Some _ _ _ Hc) as Hkl. rewrite app_length in Hkl. cbn in Hkl. rewrite lookup_app_l in Hc by lia. rewrite <- app_assoc, lookup_app_l by lia. done. }
    assert (holds (<[i + length fl := 0%N]> buf) (S (i + length fl)) t') as Hh2.
    { split; [done|]. intros k c Hc. rewrite list_lookup_insert_ne by lia. replace (S (i + length fl) + k) with (i + (length fl + S k)) by lia. apply Hlk.
      rewrite <- app_assoc, lookup_app_r by lia. replace (length fl + S k - length fl) with (S k) by lia. done. }
    rewrite insert_length. rewrite (c_string_at_spec fl) by (done || lia). rewrite bind_S.
    destruct (skip_spaces_spec t' (S (length buf)) _ _ Hh2) as (k & -> & Hk & Hh3); [lia|]. rewrite bind_S.
    rewrite (IH _ _ _ _ Hh3); [by rewrite values_without|apply without_spaces_idem|]. pose proof (without_spaces_length t'). lia.
  - rewrite app_nil_r in Et. subst t. destruct (find_separator_spec fl [] (S (length buf)) buf i) as [-> Hj]; [by rewrite app_nil_r|done|done|lia|].
    rewrite bind_S, Hj, bind_S, decide_True by done. rewrite (c_string_at_spec fl) by (done || lia). done.
Qed.
Lemma split_spec {A} (f : list N -> A -> A) t buf s : holds buf 0 t ->
  split_str_at_osm_value_separators buf f s = Some (foldl (fun s v => f v s) s (values t)).
Proof.
  intros Hh. pose proof (holds_length _ _ _ Hh) as Hlen. unfold split_str_at_osm_value_separators. destruct (skip_spaces_spec t (S (length buf)) buf 0 Hh) as (i & -> & _ & Hi); [lia|]. rewrite bind_S.
  pose proof (without_spaces_length t). rewrite (split_loop_spec _ _ _ _ _ _ Hi); [by rewrite values_without|apply without_spaces_idem|lia].
Qed.

(** ** The speed *)
Lemma foldl_min l x : foldl (fun s v => N.min (parse_maxspeed_value v) s) x l = minimum x (map parse_maxspeed_value l).
Proof.
  revert x. induction l as [|v l IH]; intros x; [done|]. cbn. rewrite IH. clear. revert x. induction l as [|w l IH]; intros x; [done|]. cbn. rewrite IH. unfold minimum. lia.
Qed.
Lemma minimum_le x l : (minimum x l <= x)%N.
Proof. induction l as [|y l IH]; cbn; [lia|]. unfold minimum in IH. lia. Qed.
Lemma minimum_elem x l y : y ∈ l -> (minimum x l <= y)%N.
Proof. induction 1 as [|y z l _ IH]; cbn; [lia|]. unfold minimum in IH. lia. Qed.
Lemma default_speed_range tags : (1 <= default_speed tags < inf_weight)%N.
Proof.
  unfold default_speed. destruct (_ ≫= _) as [speed|] eqn:E.
  - destruct (get tags "highway") as [h|]; [|done]. cbn in E. unfold highway_speed in E. repeat case_match; by simplify_eq.
  - by repeat case_match.
Qed.

Lemma speed_spec garbage tags m : length garbage = 1024 -> get tags "maxspeed" = Some m -> m <> str "unposted" -> Forall (fun c => c <> 0%N) m ->
  get_osm_way_speed garbage tags = Some (let x := minimum inf_weight (map parse_maxspeed_value (values (map lower (take 1022 m)))) in
    if decide (x = inf_weight) then default_speed tags else N.max 1 x).
Proof.
  intros Hg Hm Hu Hz. unfold get_osm_way_speed. rewrite Hm. assert (str_in m ["unposted"%string] = false) as ->. { cbn. by rewrite bool_decide_eq_false_2. }
  unfold copy_str_and_make_lower_case. destruct (copy_lower_spec m garbage 0 (1024 - 1 - 1)) as (buf & -> & Hl & _ & Hh); [done|lia|rewrite Hg; lia|]. rewrite bind_S.
  rewrite (split_spec _ _ _ _ Hh), bind_S, foldl_min. change (1024 - 1 - 1 - 0) with 1022. cbv zeta.
  generalize (minimum inf_weight (map parse_maxspeed_value (values (map lower (take 1022 m))))) as x. intros x.
  destruct (decide (x = 0%N)) as [->|Hx]; [done|]. destruct (decide (x = inf_weight)) as [Hi|Hi].
  - by rewrite decide_False by (intros ?; done).
  - rewrite decide_True by done. f_equal. lia.
Qed.

Lemma speed_defined garbage tags : length garbage = 1024 -> (forall v, get tags "maxspeed" = Some v -> Forall (fun c => c <> 0%N) v) ->
  exists v, get_osm_way_speed garbage tags = Some v /\ (1 <= v < inf_weight)%N.
Proof.
  intros Hg Hz. pose proof (default_speed_range tags) as Hd. destruct (get tags "maxspeed") as [m|] eqn:Em.
  - destruct (decide (m = str "unposted")) as [->|Hu].
    + exists (default_speed tags). unfold get_osm_way_speed. by rewrite Em.
    + rewrite (speed_spec _ _ m) by eauto. eexists. split; [done|]. cbv zeta. case_decide as Hi; [done|].
      pose proof (minimum_le inf_weight (map parse_maxspeed_value (values (map lower (take 1022 m))))). unfold inf_weight in *. lia.
  - exists (default_speed tags). unfold get_osm_way_speed. by rewrite Em.
Qed.

(** ** Numbers with a unit *)
Lemma not_literal c r l : digit c -> forallb (fun x => match str x with h :: _ => negb (bool_decide (48 <= h <= 57)%N) | [] => true end) l = true -> str_in (c :: r) l = false.
Proof.
  intros Hc Hl. unfold str_in. induction l as [|x l IH]; [done|]. cbn in *. apply andb_true_iff in Hl as [Hx Hl]. rewrite IH by done.
  rewrite bool_decide_eq_false_2; [done|]. intros E. rewrite <- E in Hx. rewrite bool_decide_eq_true_2 in Hx by exact Hc. done.
Qed.
Lemma wild_colon l r i : str_wild_char_eq l r = true -> r !! i = Some 58%N -> exists c, l !! i = Some c /\ (c = 58%N \/ c = 63%N).
Proof.
  revert r i. induction l as [|a l IH]; intros [|b r] i H Hi; try done. cbn in H. case_bool_decide as Hd; [done|]. destruct i as [|i]; cbn in Hi |- *.
  - injection Hi as ->. exists a. split; [done|]. destruct (decide (a = 63%N)); [by right|]. left. destruct (decide (a = 58%N)); [done|]. exfalso. apply Hd. done.
  - by apply (IH r).
Qed.
Lemma digits_value ds rest acc : Forall digit ds -> match rest with c :: _ => ~ digit c | [] => True end -> (acc < 2 ^ 32)%N ->
  parse_digits (ds ++ rest) acc = (((acc * 10 ^ N.of_nat (length ds) + decimal ds) mod 2 ^ 32)%N, rest).
Proof.
  assert (forall ds x, foldl (fun n c => n * 10 + (c - 48))%N x ds = (x * 10 ^ N.of_nat (length ds) + decimal ds)%N) as Hfold.
  { clear. unfold decimal. induction ds as [|c ds IH]; intros x; [cbn; lia|]. cbn [foldl length]. rewrite IH, (IH (0 * 10 + (c - 48))%N), Nat2N.inj_succ, N.pow_succ_r'. lia. }
  revert acc. induction ds as [|c ds IH]; intros acc Hd Hr Hb.
  - assert (acc * 10 ^ N.of_nat (length (@nil N)) + decimal [] = acc)%N as ->. { change (decimal []) with 0%N. change (N.of_nat (length (@nil N))) with 0%N. rewrite N.pow_0_r. lia. }
    rewrite N.mod_small by done. destruct rest as [|c rest]; [done|]. cbn [app parse_digits]. by rewrite bool_decide_eq_false_2 by exact Hr.
  - apply Forall_cons in Hd as [Hc Hd]. cbn [app parse_digits]. rewrite bool_decide_eq_true_2 by exact Hc.
    assert (decimal (c :: ds) = (c - 48) * 10 ^ N.of_nat (length ds) + decimal ds)%N as Hdec. { unfold decimal at 1. cbn [foldl]. rewrite Hfold. lia. }
    rewrite Hdec. cbn [length]. rewrite Nat2N.inj_succ, N.pow_succ_r'.
    rewrite IH; [|done|done|by apply N.mod_lt]. f_equal. rewrite <- N.add_mod_idemp_l by done. rewrite N.mul_mod_idemp_l by done. rewrite N.add_mod_idemp_l by done. f_equal. lia.
Qed.
Lemma drop_spaces_replicate k u : match u with c :: _ => c <> 32%N | [] => True end -> drop_spaces (replicate k 32%N ++ u) = u.
Proof. intros Hu. induction k as [|k IH]; cbn; [|done]. destruct u as [|c u]; [done|]. cbn. by rewrite decide_False. Qed.

Lemma parse_number s ds u : limit s ds u -> match u with c :: _ => ~ digit c /\ c <> 32%N | [] => True end -> Forall (fun c => c <> 58%N /\ c <> 63%N) u ->
  parse_maxspeed_value s = (let n := decimal ds mod 2 ^ 32 in if str_in u ["mph"%string] then n * 1609 mod 2 ^ 32 / 1000 else if str_in u ["knots"%string] then n * 1852 mod 2 ^ 32 / 1000 else n)%N.
Proof.
  intros (k & -> & Hne & Hd) Hu Hcol. destruct ds as [|c ds]; [done|]. pose proof Hd as Hd'. apply Forall_cons in Hd' as [Hc _]. set (rest := replicate k 32%N ++ u).
  assert (forall x, x ∈ (c :: ds) ++ rest -> x <> 58%N /\ x <> 63%N) as Hno.
  { intros x [Hx|Hx]%elem_of_app; [rewrite Forall_forall in Hd; apply Hd in Hx; unfold digit in Hx; lia|]. apply elem_of_app in Hx as [Hx|Hx]; [apply elem_of_replicate in Hx as [-> _]; done|]. rewrite Forall_forall in Hcol. by apply Hcol. }
  assert (forall r i, r !! i = Some 58%N -> str_wild_char_eq ((c :: ds) ++ rest) r = false) as Hw.
  { intros r i Hi. apply not_true_is_false. intros H. destruct (wild_colon _ _ _ H Hi) as (x & Hx & Hx'). apply elem_of_list_lookup_2, Hno in Hx. lia. }
  unfold parse_maxspeed_value. rewrite (Hw (str "??:walk") 2 eq_refl), (Hw (str "??:urban") 2 eq_refl), (Hw (str "??:living_street") 2 eq_refl). cbn [app]. rewrite !not_literal by done. cbn [orb].
  rewrite bool_decide_eq_true_2 by exact Hc.
  change (c :: ds ++ rest) with ((c :: ds) ++ rest). rewrite digits_value; [|done| |done].
  2:{ unfold rest. destruct k; cbn; [destruct u; [done|]; by destruct Hu|]. unfold digit. lia. }
  cbv beta iota zeta. unfold rest. rewrite drop_spaces_replicate by (destruct u; [done|]; by destruct Hu). rewrite N.mul_0_l, N.add_0_l.
  destruct (bool_decide (u = []) || str_in u ["km/h"%string; "kmh"%string; "kph"%string]) eqn:Eu; [|done].
  assert (str_in u ["mph"%string] = false /\ str_in u ["knots"%string] = false) as [-> ->]; [|done].
  apply orb_true_iff in Eu as [Eu|Eu]; [apply bool_decide_eq_true in Eu as ->; done|]. unfold str_in in Eu. apply existsb_exists in Eu as (x & Hx & Ex). apply bool_decide_eq_true in Ex as ->.
  destruct Hx as [<-|[<-|[<-|[]]]]; done.
Qed.

(** ** Posted limits *)
Lemma parse_posted s n : posted s n -> (parse_maxspeed_value s <= n)%N.
Proof.
  intros (ds & u & Hl & H).
  assert (parse_maxspeed_value s = (let n := decimal ds mod 2 ^ 32 in if str_in u ["mph"%string] then n * 1609 mod 2 ^ 32 / 1000 else if str_in u ["knots"%string] then n * 1852 mod 2 ^ 32 / 1000 else n)%N) as ->.
  { apply parse_number; [done| |]; destruct H as [[[-> |[-> |[-> | -> ]]] _ ]|[[-> _ ]|[-> _ ]]]; vm_compute; repeat first [exact I | apply List.Forall_nil | apply List.Forall_cons | split; [|done] | done | (intros [H _]; by apply H) | (intros [_ H]; by apply H)]. }
  cbv zeta. pose proof (N.mod_le (decimal ds) (2 ^ 32) ltac:(done)) as Hn. set (k := (decimal ds mod 2 ^ 32)%N) in *.
  destruct H as [[[-> |[-> |[-> | -> ]]] -> ]|[[-> -> ]|[-> -> ]]]; cbv zeta; repeat (match goal with |- context [str_in ?u ?l] => let b := eval vm_compute in (str_in u l) in change (str_in u l) with b end; cbv iota); try exact Hn.
  - apply N.div_le_mono; [done|]. etrans; [by apply N.mod_le|]. lia.
  - apply N.div_le_mono; [done|]. etrans; [by apply N.mod_le|]. lia.
Qed.
Lemma parse_posted_small s n : posted s n -> (n < 1000000)%N -> parse_maxspeed_value s = n.
Proof.
  intros (ds & u & Hl & H) Hs.
  assert (parse_maxspeed_value s = (let n := decimal ds mod 2 ^ 32 in if str_in u ["mph"%string] then n * 1609 mod 2 ^ 32 / 1000 else if str_in u ["knots"%string] then n * 1852 mod 2 ^ 32 / 1000 else n)%N) as ->.
  { apply parse_number; [done| |]; destruct H as [[[-> |[-> |[-> | -> ]]] _ ]|[[-> _ ]|[-> _ ]]]; vm_compute; repeat first [exact I | apply List.Forall_nil | apply List.Forall_cons | split; [|done] | done | (intros [H _]; by apply H) | (intros [_ H]; by apply H)]. }
  assert (forall k, decimal ds * k / 1000 < 1000000 -> 1000 <= k -> decimal ds * k < 1000000000)%N as Hk.
  { intros k Hk _. pose proof (N.mul_succ_div_gt (decimal ds * k) 1000 ltac:(done)). lia. }
  assert (forall k, decimal ds * k < 1000000000 -> 1000 <= k -> decimal ds < 1000000)%N as Hk' by (intros; nia).
  change (2 ^ 32)%N with 4294967296%N.
  destruct H as [[[-> |[-> |[-> | -> ]]] -> ]|[[-> -> ]|[-> -> ]]]; cbv zeta; repeat (match goal with |- context [str_in ?u ?l] => let b := eval vm_compute in (str_in u l) in change (str_in u l) with b end; cbv iota); try (apply N.mod_small; lia).
  - pose proof (Hk 1609%N Hs ltac:(lia)) as H1. pose proof (Hk' _ H1 ltac:(lia)). rewrite (N.mod_small (decimal ds)) by lia. by rewrite N.mod_small by lia.
  - pose proof (Hk 1852%N Hs ltac:(lia)) as H1. pose proof (Hk' _ H1 ltac:(lia)). rewrite (N.mod_small (decimal ds)) by lia. by rewrite N.mod_small by lia.
Qed.
