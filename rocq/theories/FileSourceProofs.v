(** Proofs about FileDataSource. *)
From stdpp Require Import gmap.
From Verif Require Import Base FileSourceModel FileSourceSpec.
Ltac Zify.zify_post_hook ::= idtac.

Section source.
  Context (posix : bool) (files : nat -> option (list N)) (pick : gmap nat ofile -> nat) (Hpick : unused pick).
  Notation step := (fs_step posix files pick).
  Notation run := (fs_run posix files pick).
  Lemma insert_obj (l : list (option nat)) o x p : o < length l -> <[o := x]> l !! p = if decide (p = o) then Some x else l !! p.
  Proof. intros H. case_decide as E; [subst; by apply list_lookup_insert|]. by apply list_lookup_insert_ne. Qed.
  Lemma snoc_obj (l : list (option nat)) x p : (l ++ [x]) !! p = if decide (p = length l) then Some x else l !! p.
  Proof.
    case_decide as E; [subst; by rewrite list_lookup_middle|]. destruct (decide (p < length l)); [by rewrite lookup_app_l|]. rewrite lookup_app_r by lia. rewrite (lookup_ge_None_2 l) by lia. apply lookup_ge_None_2. cbn. lia.
  Qed.
  (** Whatever [fs_open] does *)
  Lemma open_cases s o name s' a : fs_open files pick s o name = Some (s', a) ->
    (a = AThrow /\ s' = s) \/ (a = AOk /\ exists old content, fs_objs s !! o = Some old /\ files name = Some content /\
      s' = mkFs (match old with None => <[pick (fs_table s) := mkOfile content 0]> (fs_table s) | Some x => delete x (<[pick (fs_table s) := mkOfile content 0]> (fs_table s)) end) (<[o := Some (pick (fs_table s))]> (fs_objs s)) (fs_readers s)).
  Proof.
    unfold fs_open. destruct (fs_objs s !! o) as [old|] eqn:Eo; [|done]. rewrite bind_S. destruct (files name) as [content|] eqn:Ef; intros [= <- <-]; [|by left]. right. split; [done|]. by exists old, content.
  Qed.
  Lemma open_owners s o name s' a : owners s -> fs_open files pick s o name = Some (s', a) -> owners s'.
  Proof.
    intros [H1 H2] [[_ ->]|[_ (old & content & Eo & Ef & ->)]]%open_cases; [done|]. pose proof (lookup_lt_Some _ _ _ Eo) as Ho. set (fd := pick (fs_table s)) in *.
    assert (fs_table s !! fd = None) as Hfd by apply Hpick.
    split; cbn [fs_objs fs_table].
    - intros q x. rewrite insert_obj by done. case_decide as Eq.
      + intros [= <-]. destruct old as [x|]; [|rewrite lookup_insert; done]. rewrite lookup_delete_ne, lookup_insert; [done|]. intros ->. destruct (H1 _ _ Eo) as [y Hy]. congruence.
      + intros Hq. pose proof (H1 _ _ Hq) as Hx. assert (fd <> x) by (intros <-; rewrite Hfd in Hx; by destruct Hx).
        destruct old as [y|]; [|by rewrite lookup_insert_ne]. rewrite lookup_delete_ne; [by rewrite lookup_insert_ne|]. intros ->. apply Eq. by apply (H2 q o x).
    - intros q p x. rewrite !insert_obj by done. repeat case_decide; try congruence.
      + intros [= <-] Hp. destruct (H1 _ _ Hp). congruence.
      + intros Hp [= <-]. destruct (H1 _ _ Hp). congruence.
      + apply H2.
  Qed.
  Lemma open_no_leak s o name s' a : owners s -> no_leak s -> fs_open files pick s o name = Some (s', a) -> no_leak s'.
  Proof.
    intros HO HL [[_ ->]|[_ (old & content & Eo & Ef & ->)]]%open_cases; [done|]. pose proof (lookup_lt_Some _ _ _ Eo) as Ho. set (fd := pick (fs_table s)) in *.
    intros x Hx. cbn [fs_objs fs_table] in *.
    assert (is_Some (<[fd := mkOfile content 0]> (fs_table s) !! x) /\ old <> Some x) as [Hx' Hold].
    { destruct old as [y|]; [|done]. destruct (decide (y = x)) as [-> |Hy]; [rewrite lookup_delete in Hx; by destruct Hx|]. rewrite lookup_delete_ne in Hx by done. split; [done|congruence]. }
    destruct (decide (fd = x)) as [-> |Hne].
    - exists o. rewrite insert_obj, decide_True by done. done.
    - rewrite lookup_insert_ne in Hx' by done. destruct (HL _ Hx') as [p Hp]. exists p. rewrite insert_obj, decide_False; [done| |done]. intros ->. congruence.
  Qed.
  Lemma new_owners s : owners s -> owners (mkFs (fs_table s) (fs_objs s ++ [None]) (fs_readers s)).
  Proof.
    intros [H1 H2]. split; cbn [fs_objs fs_table].
    - intros o fd. rewrite snoc_obj. case_decide; [done|]. apply H1.
    - intros o p fd. rewrite !snoc_obj. repeat case_decide; try done. apply H2.
  Qed.
  Lemma new_no_leak s : no_leak s -> no_leak (mkFs (fs_table s) (fs_objs s ++ [None]) (fs_readers s)).
  Proof. intros H fd Hfd. destruct (H fd Hfd) as [o Ho]. exists o. cbn. rewrite snoc_obj, decide_False; [done|]. intros ->. apply lookup_lt_Some in Ho. lia. Qed.
  Lemma read_cases s fd n m s' a : my_read posix s fd n m = Some (s', a) ->
    (a = AThrow /\ s' = s) \/ exists x f bs, fd = Some x /\ fs_table s !! x = Some f /\ a = ABytes bs /\ bs = take (if posix then Nat.min n (Nat.max 1 m) else n) (drop (of_pos f) (of_content f)) /\
      s' = mkFs (<[x := mkOfile (of_content f) (of_pos f + length bs)]> (fs_table s)) (fs_objs s) (fs_readers s).
  Proof.
    unfold my_read. destruct fd as [x|]; cbn [mbind option_bind].
    - destruct (fs_table s !! x) as [f|] eqn:Ef; cbn [mbind option_bind].
      + intros [= <- <-]. right. by eexists x, f, _.
      + destruct posix; [|done]. intros [= <- <-]. by left.
    - destruct posix; [|done]. intros [= <- <-]. by left.
  Qed.
  (** An existing entry of the table is changed *)
  Lemma update_owners s x f g objs rd : owners s -> objs = fs_objs s -> fs_table s !! x = Some f -> owners (mkFs (<[x := g]> (fs_table s)) objs rd).
  Proof.
    intros [H1 H2] -> Hx. split; cbn [fs_objs fs_table]; [|done]. intros o fd Ho. destruct (decide (x = fd)) as [-> |]; [by rewrite lookup_insert|]. rewrite lookup_insert_ne by done. by apply (H1 o).
  Qed.
  Lemma update_no_leak s x f g objs rd : no_leak s -> objs = fs_objs s -> fs_table s !! x = Some f -> no_leak (mkFs (<[x := g]> (fs_table s)) objs rd).
  Proof.
    intros H -> Hx fd Hfd. cbn [fs_objs fs_table] in *. apply H. destruct (decide (x = fd)) as [-> |]; [by eexists|]. by rewrite lookup_insert_ne in Hfd.
  Qed.
  Lemma rewind_cases s o s' a : fs_rewind posix s o = Some (s', a) ->
    (a = AThrow /\ s' = s) \/ exists x f, a = AOk /\ fs_objs s !! o = Some (Some x) /\ fs_table s !! x = Some f /\ s' = mkFs (<[x := mkOfile (of_content f) 0]> (fs_table s)) (fs_objs s) (fs_readers s).
  Proof.
    unfold fs_rewind. destruct (fs_objs s !! o) as [[x|]|] eqn:Eo; cbn [mbind option_bind]; [| |done].
    - destruct (fs_table s !! x) as [f|] eqn:Ef; cbn [mbind option_bind].
      + intros [= <- <-]. right. by eexists x, f.
      + destruct posix; [|done]. intros [= <- <-]. by left.
    - destruct posix; [|done]. intros [= <- <-]. by left.
  Qed.
  Lemma size_cases s o s' a : fs_size posix s o = Some (s', a) -> s' = s.
  Proof.
    unfold fs_size. destruct (fs_objs s !! o) as [[x|]|] eqn:Eo; cbn [mbind option_bind]; [| |done]; [|by intros [= <- <-]]. destruct posix.
    - destruct (fs_table s !! x); cbn; [|done]. by intros [= <- <-].
    - destruct (fs_table s !! x) as [f|] eqn:Ef; cbn [mbind option_bind]; [|done]. intros [= <- <-]. destruct f as [c p]. cbn. rewrite insert_id by done. by destruct s.
  Qed.
  Lemma close_cases s o s' a : fs_close posix s o = Some (s', a) ->
    a = AOk /\ ((fs_objs s !! o = Some None /\ s' = s) \/ exists x, fs_objs s !! o = Some (Some x) /\ s' = mkFs (delete x (fs_table s)) (<[o := None]> (fs_objs s)) (fs_readers s)).
  Proof.
    unfold fs_close. destruct (fs_objs s !! o) as [[x|]|] eqn:Eo; cbn [mbind option_bind]; [| |done].
    - destruct (chk _); [|done]. cbn. intros [= <- <-]. split; [done|]. right. by exists x.
    - intros [= <- <-]. split; [done|]. by left.
  Qed.
  Lemma step_owners s op s' a : owners s -> step s op = Some (s', a) -> owners s'.
  Proof.
    intros HO E. pose proof HO as [H1 H2]. destruct op as [|name|o|o p|o name|o|o|o|o n m|o|r n m]; cbn [fs_step] in E.
    - injection E as <- <-. by apply new_owners.
    - destruct (fs_open _ _ _ _ _) as [[s1 a1]|] eqn:E1; [|done]. cbn in E. injection E as <- <-. destruct a1; try done; by eapply open_owners; [apply new_owners|].
    - destruct (fs_objs s !! o) as [fd|] eqn:Eo; [|done]. cbn in E. injection E as <- <-. pose proof (lookup_lt_Some _ _ _ Eo) as Ho. split; cbn [fs_objs fs_table].
      + intros q x. rewrite snoc_obj, insert_obj by done. repeat case_decide; try done; [|apply H1]. intros [= ->]. by eapply H1.
      + intros q p x. rewrite !snoc_obj, !insert_obj by done. repeat case_decide; try done.
        * congruence.
        * intros [= ->] Hp. pose proof (H2 _ _ _ Eo Hp). congruence.
        * intros Hp [= ->]. pose proof (H2 _ _ _ Eo Hp). congruence.
        * apply H2.
    - destruct (fs_objs s !! p) as [fd|] eqn:Ep; [|done]. cbn [mbind option_bind] in E. unfold wr in E. destruct (decide (o < length (fs_objs s))) as [Ho|]; [|done]. cbn in E. injection E as <- <-.
      pose proof (lookup_lt_Some _ _ _ Ep) as Hp.
      assert (forall q, <[p:=None]> (<[o:=fd]> (fs_objs s)) !! q = if decide (q = p) then Some None else if decide (q = o) then Some fd else fs_objs s !! q) as El.
      { intros q. rewrite insert_obj by by rewrite insert_length. case_decide; [done|]. by rewrite insert_obj. }
      split; cbn [fs_objs fs_table].
      + intros q x. rewrite El. repeat case_decide; try done; [|apply H1]. intros [= ->]. by eapply H1.
      + intros q q' x. rewrite !El. repeat case_decide; try done.
        * congruence.
        * intros [= ->] Hq. pose proof (H2 _ _ _ Ep Hq). congruence.
        * intros Hq [= ->]. pose proof (H2 _ _ _ Ep Hq). congruence.
        * apply H2.
    - by eapply open_owners.
    - apply close_cases in E as [_ [[_ ->]|(x & Eo & ->)]]; [done|]. pose proof (lookup_lt_Some _ _ _ Eo) as Ho. split; cbn [fs_objs fs_table].
      + intros q y. rewrite insert_obj by done. case_decide as Eq; [done|]. intros Hq. rewrite lookup_delete_ne; [by eapply H1|]. intros ->. apply Eq. by eapply H2.
      + intros q p y. rewrite !insert_obj by done. repeat case_decide; try done. apply H2.
    - apply rewind_cases in E as [[_ ->]|(x & f & _ & _ & Hx & ->)]; [done|]. by eapply update_owners.
    - by apply size_cases in E as ->.
    - destruct (fs_objs s !! o) as [fd|]; [|done]. cbn [mbind option_bind] in E. apply read_cases in E as [[_ ->]|(x & f & bs & _ & Hx & _ & _ & ->)]; [done|]. by eapply update_owners.
    - destruct (fs_objs s !! o) as [fd|]; [|done]. cbn in E. injection E as <- <-. done.
    - destruct (fs_readers s !! r) as [fd|]; [|done]. cbn [mbind option_bind] in E. apply read_cases in E as [[_ ->]|(x & f & bs & _ & Hx & _ & _ & ->)]; [done|]. by eapply update_owners.
  Qed.
  Lemma step_no_leak s op s' a : owners s -> no_leak s -> match op with FMove o _ => fs_objs s !! o = Some None | _ => True end -> step s op = Some (s', a) -> no_leak s'.
  Proof.
    intros HO HL Hc E. destruct op as [|name|o|o p|o name|o|o|o|o n m|o|r n m]; cbn [fs_step] in E.
    - injection E as <- <-. by apply new_no_leak.
    - destruct (fs_open _ _ _ _ _) as [[s1 a1]|] eqn:E1; [|done]. cbn in E. injection E as <- <-. destruct a1; try done; by eapply open_no_leak; [apply new_owners|apply new_no_leak|].
    - destruct (fs_objs s !! o) as [fd|] eqn:Eo; [|done]. cbn in E. injection E as <- <-. pose proof (lookup_lt_Some _ _ _ Eo) as Ho. intros x Hx. cbn [fs_objs fs_table] in *. destruct (HL _ Hx) as [q Hq].
      destruct (decide (q = o)) as [-> |Hne].
      + exists (length (fs_objs s)). rewrite snoc_obj, insert_length, decide_True by done. congruence.
      + exists q. rewrite snoc_obj, insert_length, decide_False; [rewrite insert_obj, decide_False; done|]. apply lookup_lt_Some in Hq. lia.
    - destruct (fs_objs s !! p) as [fd|] eqn:Ep; [|done]. cbn [mbind option_bind] in E. unfold wr in E. destruct (decide (o < length (fs_objs s))) as [Ho|]; [|done]. cbn in E. injection E as <- <-.
      pose proof (lookup_lt_Some _ _ _ Ep) as Hp. intros x Hx. cbn [fs_objs fs_table] in *. destruct (HL _ Hx) as [q Hq].
      assert (forall q, <[p:=None]> (<[o:=fd]> (fs_objs s)) !! q = if decide (q = p) then Some None else if decide (q = o) then Some fd else fs_objs s !! q) as El.
      { intros q'. rewrite insert_obj by by rewrite insert_length. case_decide; [done|]. by rewrite insert_obj. }
      destruct (decide (q = p)) as [-> |Hne].
      + exists o. rewrite El. destruct (decide (o = p)) as [-> |]; [congruence|]. rewrite decide_True by done. congruence.
      + exists q. rewrite El, decide_False by done. rewrite decide_False; [done|]. intros ->. congruence.
    - by eapply open_no_leak.
    - apply close_cases in E as [_ [[_ ->]|(x & Eo & ->)]]; [done|]. pose proof (lookup_lt_Some _ _ _ Eo) as Ho. intros y Hy. cbn [fs_objs fs_table] in *.
      destruct (decide (x = y)) as [-> |Hne]; [rewrite lookup_delete in Hy; by destruct Hy|]. rewrite lookup_delete_ne in Hy by done. destruct (HL _ Hy) as [q Hq]. exists q. rewrite insert_obj, decide_False; [done| |done]. intros ->. congruence.
    - apply rewind_cases in E as [[_ ->]|(x & f & _ & _ & Hx & ->)]; [done|]. by eapply update_no_leak.
    - by apply size_cases in E as ->.
    - destruct (fs_objs s !! o) as [fd|]; [|done]. cbn [mbind option_bind] in E. apply read_cases in E as [[_ ->]|(x & f & bs & _ & Hx & _ & _ & ->)]; [done|]. by eapply update_no_leak.
    - destruct (fs_objs s !! o) as [fd|]; [|done]. cbn in E. injection E as <- <-. done.
    - destruct (fs_readers s !! r) as [fd|]; [|done]. cbn [mbind option_bind] in E. apply read_cases in E as [[_ ->]|(x & f & bs & _ & Hx & _ & _ & ->)]; [done|]. by eapply update_no_leak.
  Qed.
  Lemma run_cons s op ops s' l : run s (op :: ops) = Some (s', l) -> exists s1 a l1, step s op = Some (s1, a) /\ run s1 ops = Some (s', l1) /\ l = a :: l1.
  Proof.
    cbn [fs_run]. destruct (step s op) as [[s1 a]|]; [|done]. cbn [mbind option_bind]. destruct (run s1 ops) as [[s2 l1]|] eqn:E; [|done]. cbn. intros [= <- <-]. by exists s1, a, l1.
  Qed.
  Lemma start_owners : owners fs_start.
  Proof. split; intros *; by cbn. Qed.
  Lemma run_owners s ops s' l : owners s -> run s ops = Some (s', l) -> owners s'.
  Proof.
    revert s l. induction ops as [|op ops IH]; intros s l HO E; [cbn in E; by injection E as <- <-|]. apply run_cons in E as (s1 & a & l1 & E1 & E2 & ->). eapply IH; [|exact E2]. by eapply step_owners.
  Qed.
  Lemma run_no_leak s ops s' l : owners s -> no_leak s -> careful posix files pick s ops -> run s ops = Some (s', l) -> no_leak s'.
  Proof.
    revert s l. induction ops as [|op ops IH]; intros s l HO HL Hc E; [cbn in E; by injection E as <- <-|]. apply run_cons in E as (s1 & a & l1 & E1 & E2 & ->). destruct Hc as [Hc1 Hc2]. eapply IH; [| | |exact E2].
    - by eapply step_owners.
    - by eapply step_no_leak.
    - by eapply Hc2.
  Qed.
  Lemma close_all s : owners s -> no_leak s -> exists s' l, run s (FClose <$> seq 0 (length (fs_objs s))) = Some (s', l) /\ fs_table s' = ∅ /\ Forall (fun a => a = AOk) l.
  Proof.
    intros HO HL.
    assert (forall k j s, j + k = length (fs_objs s) -> owners s -> no_leak s -> (forall i, i < j -> fs_objs s !! i = Some None) ->
      exists s' l, run s (FClose <$> seq j k) = Some (s', l) /\ fs_table s' = ∅ /\ Forall (fun a => a = AOk) l) as Hmain; [|eapply Hmain; [done|done|done|lia]].
    clear s HO HL. induction k as [|k IH]; intros j s Hl HO HL Hj.
    - exists s, []. split; [done|]. split; [|constructor]. apply map_empty. intros fd. destruct (fs_table s !! fd) as [f|] eqn:Ef; [|done]. destruct (HL fd) as [o Ho]; [by eexists|]. pose proof (lookup_lt_Some _ _ _ Ho). rewrite Hj in Ho by lia. done.
    - cbn [seq fmap list_fmap]. destruct (fs_objs s !! j) as [x|] eqn:Ex; [|apply lookup_ge_None in Ex; lia].
      assert (exists s1, step s (FClose j) = Some (s1, AOk) /\ length (fs_objs s1) = length (fs_objs s) /\ (forall i, i < S j -> fs_objs s1 !! i = Some None)) as (s1 & E1 & Hl1 & Hj1).
      { cbn [fs_step]. unfold fs_close. rewrite Ex. cbn [mbind option_bind]. destruct x as [x|].
        - rewrite bool_decide_eq_true_2 by (by eapply HO). rewrite orb_true_r. cbn. eexists. split; [done|]. cbn. split; [by rewrite insert_length|]. intros i Hi. rewrite insert_obj by by eapply lookup_lt_Some. case_decide; [done|]. apply Hj. lia.
        - exists s. split; [done|]. split; [done|]. intros i Hi. destruct (decide (i = j)) as [-> |]; [done|]. apply Hj. lia. }
      destruct (IH (S j) s1) as (s2 & l & E2 & Ht & Hf); [lia|exact (step_owners _ _ _ _ HO E1)|exact (step_no_leak s (FClose j) s1 AOk HO HL I E1)|done|]. exists s2, (AOk :: l). split; [|split; [done|by constructor]]. change (fs_run posix files pick s (FClose j :: (FClose <$> seq (S j) k)) = Some (s2, AOk :: l)). cbn [fs_run]. rewrite E1. cbn [mbind option_bind]. by rewrite E2.
  Qed.
  (** One step and the file of a variable *)
  Lemma step_has_file s op s' a o fd content pos : owners s -> has_file s o fd content pos -> ~ changes o op -> step s op = Some (s', a) ->
    (reads fd s op /\ exists bs, a = ABytes bs /\ bs = take (length bs) (drop pos content) /\ has_file s' o fd content (pos + length bs)) \/ (~ reads fd s op /\ has_file s' o fd content pos).
  Proof.
    intros HO [F1 F2] Hc E. pose proof HO as [H1 H2]. pose proof (lookup_lt_Some _ _ _ F1) as Hlt.
    assert (forall x g objs rd, fd <> x -> objs !! o = Some (Some fd) -> has_file (mkFs (<[x := g]> (fs_table s)) objs rd) o fd content pos) as Hother by (intros x g objs rd Hne Hob; split; [done|]; cbn; by rewrite lookup_insert_ne).
    assert (forall x n m, (exists q, fs_objs s !! q = Some x \/ fs_readers s !! q = Some x) -> my_read posix s x n m = Some (s', a) ->
      (x = Some fd /\ exists bs, a = ABytes bs /\ bs = take (length bs) (drop pos content) /\ has_file s' o fd content (pos + length bs)) \/ (x <> Some fd /\ has_file s' o fd content pos)) as Hread.
    { intros x n m _ Er. pose proof Er as [[-> ->]|(y & f & bs & -> & Hy & -> & Hbs & ->)]%read_cases.
      - right. split; [|done]. intros ->. unfold my_read in Er. cbn [mbind option_bind] in Er. rewrite F2 in Er. cbn [mbind option_bind] in Er. discriminate Er.
      - destruct (decide (y = fd)) as [-> |Hne].
        + left. split; [done|]. exists bs. split; [done|]. rewrite F2 in Hy. injection Hy as <-. cbn [of_pos of_content] in *. split; [|split; [done|cbn; by rewrite lookup_insert]].
          rewrite Hbs at 1. rewrite Hbs, take_length, <- take_take. by rewrite (take_ge _ (length (drop pos content))).
        + right. split; [congruence|]. by apply Hother. }
    destruct op as [|name|q|q p|q name|q|q|q|q n m|q|r n m]; cbn [fs_step reads changes] in *.
    - right. split; [by intros []|]. injection E as <- <-. split; [|done]. cbn. rewrite snoc_obj, decide_False by lia. done.
    - right. split; [by intros []|]. destruct (fs_open _ _ _ _ _) as [[s1 a1]|] eqn:E1; [|done]. cbn in E. injection E as <- <-.
      apply open_cases in E1 as [[-> ->]|[-> (old & c & Eo & Ef & ->)]]; [done|]. cbn [fs_objs fs_table fs_readers] in *. rewrite list_lookup_middle in Eo by done. injection Eo as <-.
      apply Hother; [intros ->; rewrite Hpick in F2; done|]. rewrite insert_obj by (rewrite app_length; cbn; lia). rewrite decide_False by lia. rewrite snoc_obj, decide_False by lia. done.
    - right. split; [by intros []|]. destruct (fs_objs s !! q) as [x|] eqn:Eq; [|done]. cbn in E. injection E as <- <-. split; [|done]. cbn. rewrite snoc_obj, insert_length, decide_False by lia. rewrite insert_obj by by eapply lookup_lt_Some. rewrite decide_False; [done|]. congruence.
    - right. split; [by intros []|]. destruct (fs_objs s !! p) as [x|] eqn:Ep; [|done]. cbn [mbind option_bind] in E. unfold wr in E. destruct (decide (q < length (fs_objs s))) as [Hq|]; [|done]. cbn in E. injection E as <- <-. split; [|done]. cbn.
      rewrite insert_obj by (rewrite insert_length; by eapply lookup_lt_Some). rewrite decide_False by naive_solver. rewrite insert_obj by done. rewrite decide_False by naive_solver. done.
    - right. split; [by intros []|]. apply open_cases in E as [[-> ->]|[-> (old & c & Eo & Ef & ->)]]; [done|]. pose proof (lookup_lt_Some _ _ _ Eo).
      assert (<[q:=Some (pick (fs_table s))]> (fs_objs s) !! o = Some (Some fd)) as Hob by (rewrite insert_obj, decide_False by congruence; done). assert (fd <> pick (fs_table s)) as Hp by (intros ->; rewrite Hpick in F2; done).
      split; [done|]. cbn [fs_table]. destruct old as [y|]; [|by rewrite lookup_insert_ne]. rewrite lookup_delete_ne; [by rewrite lookup_insert_ne|]. intros ->. apply Hc. by eapply H2.
    - right. split; [by intros []|]. apply close_cases in E as [_ [[_ ->]|(x & Eo & ->)]]; [done|]. split; cbn.
      + rewrite insert_obj by by eapply lookup_lt_Some. rewrite decide_False; [done|]. congruence.
      + rewrite lookup_delete_ne; [done|]. intros ->. apply Hc. by eapply H2.
    - right. split; [by intros []|]. apply rewind_cases in E as [[_ ->]|(x & f & _ & Eq & Hx & ->)]; [done|]. apply Hother; [|done]. intros <-. apply Hc. by eapply H2.
    - right. split; [by intros []|]. by apply size_cases in E as ->.
    - destruct (fs_objs s !! q) as [x|] eqn:Eq; [|done]. cbn [mbind option_bind] in E. destruct (Hread x n m) as [[-> H]|[H ?]]; [by exists q; left|done|by left|right]. split; [congruence|done].
    - right. split; [by intros []|]. destruct (fs_objs s !! q) as [x|]; [|done]. cbn in E. injection E as <- <-. done.
    - destruct (fs_readers s !! r) as [x|] eqn:Eq; [|done]. cbn [mbind option_bind] in E. destruct (Hread x n m) as [[-> H]|[H ?]]; [by exists r; right|done|by left|right]. split; [congruence|done].
  Qed.
  Lemma run_has_file s ops s' l o fd content pos : owners s -> has_file s o fd content pos -> Forall (fun op => ~ changes o op) ops -> run s ops = Some (s', l) ->
    exists bs, bytes_read posix files pick fd s ops bs /\ bs = take (length bs) (drop pos content) /\ has_file s' o fd content (pos + length bs).
  Proof.
    intros HO HF Hc. revert s l pos HO HF. induction Hc as [|op ops Hop _ IH]; intros s l pos HO HF E.
    - injection E as <- <-. exists []. split; [constructor|]. split; [done|]. cbn. by rewrite Nat.add_0_r.
    - apply run_cons in E as (s1 & a & l1 & E1 & E2 & ->). pose proof (step_owners _ _ _ _ HO E1) as HO1.
      destruct (step_has_file _ _ _ _ _ _ _ _ HO HF Hop E1) as [(Hr & bs & -> & Hbs & HF1)|(Hr & HF1)].
      + destruct (IH s1 l1 _ HO1 HF1 E2) as (bs' & Hb & Hbs' & HF2). exists (bs ++ bs'). split; [by eapply br_read|]. rewrite app_length. split.
        * transitivity (take (length bs) (drop pos content) ++ take (length bs') (drop (pos + length bs) content)); [by f_equal|]. rewrite <- drop_drop. apply take_take_drop.
        * by rewrite Nat.add_assoc.
      + destruct (IH s1 l1 _ HO1 HF1 E2) as (bs' & Hb & Hbs' & HF2). exists bs'. split; [by eapply br_other|]. done.
  Qed.
End source.
