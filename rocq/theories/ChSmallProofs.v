(** The construction with numbers of 32 bits is right when the weights of the hierarchy that comes out are small. *)
From Verif Require Import Base UtilSpec GraphSpec GraphUtilModel PermutationModel PermutationProofs IdQueueModel IdQueueSpec IdQueueProofs IdSetModel IdSetSpec IdSetProofs WalkSpec ChCleanModel ChCleanSpec ChCleanProofs
  ChGraphModel ChGraphProofs ChWitnessProofs ChContractProofs ChHierarchyProofs ChBuildModel ChLoopProofs ChSpec ChFinishProofs ChCacheProofs ChBuildProofs ChWrapModel.
Ltac Zify.zify_post_hook ::= idtac.

Lemma for_each_eq {A S} (P : S -> Prop) (f g : A -> S -> option S) l : forall s,
  P s -> (forall a s, a ∈ l -> P s -> f a s = g a s /\ forall s', g a s = Some s' -> P s') ->
  for_each l f s = for_each l g s /\ forall s', for_each l g s = Some s' -> P s'.
Proof.
  induction l as [|a l IH]; intros s Hs H; cbn [for_each]; [split; [done|]; intros s' [= <-]; done|].
  destruct (H a s) as [-> Hn]; [by left|done|]. destruct (g a s) as [s1|]; [|done]. rewrite !bind_S. apply IH; [by apply Hn|]. intros b s2 Hb. apply H. by right.
Qed.

Lemma for_range_holds {S} (P : nat -> S -> Prop) (f : nat -> S -> option S) n s s' : for_range 0 n f s = Some s' -> P 0 s ->
  (forall i s s', i < n -> P i s -> f i s = Some s' -> P (i + 1) s') -> P n s'.
Proof.
  unfold for_range. rewrite Nat.sub_0_r. intros E H0 Hs. enough (forall k i s, i + k = n -> P i s -> for_n k i f s = Some s' -> P n s') as H by by apply (H n 0 s).
  clear E H0. intros k. induction k as [|k IH]; intros i s1 Hi Hp; cbn [for_n]; [intros [= <-]; by replace n with i by lia|].
  destruct (f i s1) as [s2|] eqn:E; [|done]. rewrite bind_S. apply IH; [lia|]. replace (Datatypes.S i) with (i + 1) by lia. eapply Hs; [lia|done|done].
Qed.

(** [red] does not change numbers of at most 12 * [lim]. *)
Section small.
Context (red : N -> option N) (lim : N).
Hypothesis Hred : forall x, (x <= 12 * lim)%N -> red x = Some x.
Hypothesis Htot : forall x, is_Some (red x).

(** The distances that a search has stored, also for earlier searches *)
Definition distb (s : wside) : Prop := Forall (fun d => (d <= 6 * lim)%N) (ws_dist s).
Definition adjb (adj : list (list garc)) : Prop := forall x l a, adj !! x = Some l -> a ∈ l -> (ga_weight a <= 2 * lim)%N.
Definition gb (g : chgraph) : Prop := forall u v w h m, gf g u v = Some (w, h, m) -> (w <= 2 * lim)%N.

Lemma witness_eq other x d len : distb other -> (d <= 6 * lim)%N -> is_witness_u red other x d len = is_witness other x d len.
Proof.
  intros Ho Hd. unfold is_witness_u, is_witness. destruct (is_set (ws_pushed other) x) as [[]|]; [|done|done]. rewrite !bind_S.
  destruct (ws_dist other !! x) as [e|] eqn:He; [|done]. rewrite !bind_S. unfold distb in Ho. rewrite Forall_lookup in Ho. specialize (Ho _ _ He).
  rewrite Hred by lia. done.
Qed.
Lemma relax_eq other byp len key a s fd : distb other -> distb s -> (key + ga_weight a <= 6 * lim)%N ->
  relax_witness_u red other byp len key a (s, fd) = relax_witness other byp len key a (s, fd) /\
  forall s' fd', relax_witness other byp len key a (s, fd) = Some (s', fd') -> distb s'.
Proof.
  intros Ho Hs Hd. unfold relax_witness_u, relax_witness. cbv beta iota zeta.
  destruct (decide (ga_node a = byp)) as [|Hb]; [split; [done|]; by intros s' fd' [= <- <-]|].
  rewrite Hred by lia. rewrite bind_S. assert (forall ds, wr (ws_dist s) (ga_node a) (key + ga_weight a)%N = Some ds -> Forall (fun d => (d <= 6 * lim)%N) ds) as Hw.
  { intros ds. unfold wr. destruct (decide _); [|done]. intros [= <-]. by apply Forall_insert. }
  destruct (is_set (ws_pushed s) (ga_node a)) as [[]|]; [| |done]; rewrite !bind_S.
  - destruct (ws_dist s !! ga_node a) as [old|]; [|done]. rewrite !bind_S. destruct (decide _); [|split; [done|]; by intros s' fd' [= <- <-]].
    destruct (decrease_key _ _) as [[? q]|]; [|done]. rewrite !bind_S. destruct (wr _ _ _) as [ds|]; [|done]. rewrite !bind_S.
    rewrite witness_eq by done. split; [done|]. destruct (is_witness _ _ _ _) as [wit|]; [|done]. rewrite bind_S. intros s' fd' [= <- <-]. by apply Hw.
  - destruct (set_flag _ _) as [f|]; [|done]. rewrite !bind_S. destruct (wr _ _ _) as [ds|]; [|done]. rewrite !bind_S.
    destruct (push _ _) as [q|]; [|done]. rewrite !bind_S.
    rewrite witness_eq by done. split; [done|]. destruct (is_witness _ _ _ _) as [wit|]; [|done]. rewrite bind_S. intros s' fd' [= <- <-]. by apply Hw.
Qed.
Lemma settle_eq adj other byp len s : adjb adj -> distb other -> distb s ->
  (forall x key q, pop (ws_queue s) = Some ((x, key), q) -> (key <= 4 * lim)%N) ->
  witness_settle_u red adj other byp len s = witness_settle adj other byp len s /\
  forall s' fd, witness_settle adj other byp len s = Some (s', fd) -> distb s'.
Proof.
  intros Ha Ho Hs Hp. unfold witness_settle_u, witness_settle. destruct (pop (ws_queue s)) as [[[x key] q]|]; [|done]. rewrite !bind_S. specialize (Hp _ _ _ eq_refl).
  destruct (ws_dist s !! x) as [d|]; [|done]. rewrite !bind_S. destruct (chk _) as [[]|]; [|done]. rewrite !bind_S. destruct (is_set _ _) as [p|]; [|done]. rewrite !bind_S.
  destruct (chk p) as [[]|]; [|done]. rewrite !bind_S. cbv zeta. rewrite witness_eq by (done || lia). destruct (is_witness _ _ _ _) as [[]|]; [| |done]; rewrite !bind_S.
  { split; [done|]. by intros s' fd [= <- <-]. }
  destruct (adj !! x) as [arcs|] eqn:Ex; [|done]. rewrite !bind_S.
  destruct (for_each_eq (fun st : wside * bool => distb (fst st)) (relax_witness_u red other byp len key) (relax_witness other byp len key) arcs (mkWside (ws_dist s) q (ws_pushed s), false)) as [-> Hf].
  - done.
  - intros a [s1 fd1] Hin H1. specialize (Ha _ _ _ Ex Hin). destruct (relax_eq other byp len key a s1 fd1) as [-> H2]; [done|done|lia|]. split; [done|]. intros [s2 fd2] E. by eapply H2.
  - split; [done|]. intros s' fd E. by apply (Hf (s', fd)).
Qed.

(** The graph *)
Lemma gb_out n g : gok n g -> gb g -> adjb (g_out g).
Proof. intros Hg Hb x l a Hl Ha. eapply (Hb x (ga_node a)). rewrite (fo_lookup _ _ _ _ Hl). apply lkup_elem; [by eapply gk_nd_out|done]. Qed.
Lemma gb_in n g : gok n g -> gb g -> adjb (g_in g).
Proof. intros Hg Hb x l a Hl Ha. eapply (Hb (ga_node a) x). rewrite (gk_mirror n g Hg), (fo_lookup _ _ _ _ Hl). apply lkup_elem; [by eapply gk_nd_in|done]. Qed.
Lemma top_small n E s byp ws p : wsi n E s byp ws -> distb ws -> peek (ws_queue ws) = Some p -> (snd p <= 6 * lim)%N /\ forall x key q, pop (ws_queue ws) = Some ((x, key), q) -> key = snd p.
Proof.
  intros (m & P & H) Hd Hp. pose proof (wi_q _ _ _ _ _ _ _ H) as Hq. assert (m <> ∅) as Hne.
  { intros ->. pose proof (q_empty_spec n _ _ Hq) as E0. rewrite bool_decide_eq_true_2 in E0 by done. unfold peek in Hp. rewrite E0 in Hp. done. }
  destruct (root_min n _ m Hq Hne) as (id & k & Hh & [Hmin1 Hmin2] & Hs). unfold peek in Hp. destruct (chk _) as [[]|]; [|done]. rewrite bind_S, Hh in Hp. injection Hp as <-. cbn.
  destruct (wi_m _ _ _ _ _ _ _ H id k Hmin1) as [_ Hk]. unfold distb in Hd. rewrite Forall_lookup in Hd. split; [by eapply Hd|].
  intros x key q Ex. destruct (pop_spec n _ m Hq Hne) as (x' & k' & q' & Ex' & [Hm1 Hm2] & _). rewrite Ex in Ex'. injection Ex' as -> -> ->.
  apply (anti_symm N.le); eauto.
Qed.
Lemma loop_eq n g byp len s t : gok n g -> gb g -> (len <= 4 * lim)%N ->
  forall k f b, wsi n (avoid byp (gaw g)) s byp f -> wsi n (rev_arcs (avoid byp (gaw g))) t byp b -> distb f -> distb b ->
  witness_loop_u red g byp len k f b = witness_loop g byp len k f b /\
  forall f' b' r, witness_loop g byp len k f b = Some (f', b', r) -> distb f' /\ distb b'.
Proof.
  intros Hg Hgb Hlen k. induction k as [|k IH]; intros f b Hf Hb Df Db; cbn [witness_loop_u witness_loop].
  all: destruct (q_empty (ws_queue f)) eqn:Ef; cbn [orb]; [split; [done|]; intros f' b' r [= <- <- <-]; done|].
  all: destruct (q_empty (ws_queue b)) eqn:Eb; [split; [done|]; intros f' b' r [= <- <- <-]; done|].
  all: destruct (peek (ws_queue f)) as [pf|] eqn:Ep; [|done]; rewrite !bind_S.
  all: destruct (peek (ws_queue b)) as [pb|] eqn:Eq; [|done]; rewrite !bind_S.
  all: destruct (top_small _ _ _ _ _ _ Hf Df Ep) as [Tf Pf], (top_small _ _ _ _ _ _ Hb Db Eq) as [Tb Pb].
  all: rewrite Hred by lia; rewrite bind_S.
  all: destruct (decide (len < snd pf + snd pb)%N) as [|Hle]; [split; [done|]; intros f' b' r [= <- <- <-]; done|].
  all: destruct (decide (snd pf <= snd pb)%N);
    [destruct (settle_eq (g_out g) b byp len f) as [-> Hd]; [by eapply gb_out|done|done|intros x key q Ex; rewrite (Pf _ _ _ Ex); lia|];
     destruct (witness_settle_spec n (avoid byp (gaw g)) (rev_arcs (avoid byp (gaw g))) s t byp b len Hb (g_out g) f)
       as (f1 & found & E & Hf1 & _); [done|done|by apply gk_out|intros; by eapply out_arcs|]
    |destruct (settle_eq (g_in g) f byp len b) as [-> Hd]; [by eapply gb_in|done|done|intros x key q Ex; rewrite (Pb _ _ _ Ex); lia|];
     destruct (witness_settle_spec n (rev_arcs (avoid byp (gaw g))) (avoid byp (gaw g)) t s byp f len Hf (g_in g) b)
       as (b1 & found & E & Hb1 & _); [done|done|by apply gk_in|intros; by eapply in_arcs|]];
    rewrite E, !bind_S; specialize (Hd _ _ E); destruct found;
    try (split; [done|]; intros ? ? ? [= <- <- <-]; done); by apply IH.
Qed.

(** Both searches *)
Definition tb (t : wtest) : Prop := distb (wt_fwd t) /\ distb (wt_bwd t).
Lemma distb_new n : distb (new_wside n).
Proof. apply Forall_replicate. lia. Qed.
Lemma tb_new n : tb (new_wtest n).
Proof. split; apply distb_new. Qed.
Lemma start_b ws s ws' : distb ws -> start_search ws s = Some ws' -> distb ws'.
Proof.
  intros H. unfold start_search. destruct (clear _); [|done]. rewrite bind_S. destruct (push _ _); [|done]. rewrite bind_S. unfold wr. destruct (decide _); [|done]. rewrite bind_S.
  destruct (set_flag _ _); [|done]. rewrite bind_S. intros [= <-]. unfold distb. cbn [ws_dist]. apply Forall_insert; [done|lia].
Qed.
Lemma pin_b t s node t' : tb t -> pin_source t s node = Some t' -> tb t'.
Proof. intros [H1 H2]. unfold pin_source. destruct (start_search _ _) as [f|] eqn:E; [|done]. rewrite bind_S. intros [= <-]. split; [exact (start_b _ _ _ H1 E)|done]. Qed.
Lemma shorter_u_spec n g max_pop t s node target len :
  gok n g -> gb g -> (len <= 4 * lim)%N -> pinned n g node s t -> tb t -> target < n -> target <> node ->
  exists r t', shorter_path_u red g max_pop t target len = Some (r, t') /\ pinned n g node s t' /\ tb t' /\
    (r = true -> exists L, (L <= len)%N /\ dist_walk (avoid node (gaw g)) s target L).
Proof.
  intros Hg Hgb Hlen Hp [Df Db] Ht Hne. destruct (shorter_spec n g max_pop t s node target len Hg Hp Ht Hne) as (r & t' & E & Hp' & Hr). exists r, t'.
  destruct Hp as (Hby & Hf & Hb).
  enough (shorter_path_u red g max_pop t target len = does_shorter_or_equal_path_to_target_exist g max_pop t target len /\ tb t') as [-> ?] by done. clear Hr.
  revert E. unfold shorter_path_u, does_shorter_or_equal_path_to_target_exist.
  destruct (start_search_spec n (rev_arcs (avoid node (gaw g))) target node _ Hb Ht Hne) as (b & E & Hb'). rewrite E, !bind_S. pose proof (start_b _ _ _ Db E) as Db'.
  destruct (is_set _ _) as [p|]; [|done]. rewrite !bind_S. destruct (if p then _ else _) as [[]|]; [| |done]; rewrite !bind_S.
  { intros [= <- <-]. done. }
  rewrite Hby. destruct (loop_eq n g node len s target Hg Hgb Hlen max_pop _ _ Hf Hb' Df Db') as [-> Hd].
  destruct (witness_loop _ _ _ _ _ _) as [[[f1 b1] r1]|]; [|done]. rewrite !bind_S. intros [= <- <-]. split; [done|]. by eapply Hd.
Qed.

(** ** The contraction of a node *)
Definition link (g : chgraph) (u v : nat) : Prop := is_Some (gf g u v).
Definition midb (n : nat) (g : chgraph) : Prop := forall u v w h z, gf g u v = Some (w, h, Some z) -> z < n.
(** Whatever the numbers are: arcs do not appear between nodes that were not connected before. *)
Lemma contract_u_shape n max_pop g0 t x g' t' : gok n g0 -> midb n g0 -> x < n -> contract_u red max_pop g0 t x = Some (g', t') ->
  gok n g' /\ midb n g' /\ g_level g' = g_level g0 /\ forall u v, link g' u v -> u <> x /\ v <> x /\ (link g0 u v \/ (link g0 u x /\ link g0 x v)).
Proof.
  intros Hg Hmid Hx. unfold contract_u.
  destruct (lookup_lt_is_Some_2 (g_in g0) x) as [ins Hins]; [rewrite (gk_in n g0 Hg); lia|].
  destruct (lookup_lt_is_Some_2 (g_out g0) x) as [outs Houts]; [rewrite (gk_out n g0 Hg); lia|].
  rewrite Hins, bind_S, Houts, bind_S.
  pose (P := fun g : chgraph => gok n g /\ midb n g /\ g_level g = g_level g0 /\ forall u v, link g u v -> link g0 u v \/ (link g0 u x /\ link g0 x v)).
  match goal with |- context [for_each ins ?b _] => set (body := b) end.
  destruct (for_each ins body (g0, t)) as [[g1 t1]|] eqn:E; [|done]. rewrite bind_S.
  assert (P g1) as (Hg1 & Hm1 & Hl1 & Hn1).
  { refine (for_each_inv' (fun _ st => P (fst st)) body ins (g0, t) (g1, t1) E _ _); [split; [done|]; split; [done|]; split; [done|]; by left|].
    intros pre ia post [g t2] [g2 t3] Hsp HP. assert (ia ∈ ins) as Hia by (rewrite Hsp; apply elem_of_app; right; by left). unfold body.
    pose proof (ins_arc n g0 x Hg ins ia Hins Hia) as Hfi. destruct (gok_lt _ _ _ _ _ Hg Hfi) as (Hin & _ & Hinn).
    destruct (pin_source _ _ _) as [t4|]; [|done]. rewrite bind_S. intros E2.
    refine (for_each_inv' (fun _ st => P (fst st)) _ outs (g, t4) (g2, t3) E2 HP _).
    intros pre2 oa post2 [g3 t5] [g4 t6] Hsp2 (Hg3 & Hm3 & Hl3 & Hn3). assert (oa ∈ outs) as Hoa by (rewrite Hsp2; apply elem_of_app; right; by left).
    pose proof (outs_arc n g0 x Hg outs oa Houts Hoa) as Hfo. destruct (gok_lt _ _ _ _ _ Hg Hfo) as (_ & Hout & Houtn).
    cbv beta iota.
    destruct (decide (ga_node ia <> ga_node oa)) as [Hne|]; [|by intros [= <- <-]].
    cbn [fst] in Hg3, Hm3, Hl3, Hn3. destruct (red (ga_weight ia + ga_weight oa)%N) as [len|]; [|done]. rewrite bind_S. destruct (shorter_path_u _ _ _ _ _ _) as [[[] t7]|]; [by intros [= <- <-]| |done]. rewrite bind_S.
    destruct (red (ga_hop ia + ga_hop oa)%N) as [hop|]; [|done]. rewrite bind_S.
    destruct (add_arc_spec n g3 (ga_node ia) (Some x) (ga_node oa) len hop Hg3 Hin Hout Hne) as (g5 & -> & Hg5 & Hl5 & v & Hv & _ & _ & Hf5).
    rewrite bind_S. intros [= <- <-]. cbn [fst]. split; [done|]. split; [|split; [congruence|]].
    - intros a b w h z. rewrite Hf5. unfold upd. destruct (decide _) as [[-> ->]|]; [|apply Hm3]. intros [= ->]. destruct Hv as [Hv|[= -> -> ->]]; [by eapply Hm3|done].
    - intros a b. unfold link. rewrite Hf5. unfold upd. destruct (decide _) as [[-> ->]|]; [|apply Hn3]. intros _. right. split; [by eexists|by eexists]. }
  destruct (remove_all_spec n g1 x Hg1 Hx) as (g3 & -> & Hg3 & Hl3 & Hf3). rewrite bind_S. intros [= <- <-]. split; [done|]. split; [|split; [congruence|]].
  - intros u v w h z. rewrite Hf3. destruct (decide _); [done|]. apply Hm1.
  - intros u v. unfold link. rewrite Hf3. destruct (decide (u = x \/ v = x)) as [|Hne]; [by intros [? ?]|]. intros H. split; [naive_solver|]. split; [naive_solver|]. by apply Hn1.
Qed.
(** With small numbers the contraction is right. *)
Definition nodeb (g : chgraph) (x : nat) : Prop := forall u v w h m, u = x \/ v = x -> gf g u v = Some (w, h, m) -> (w <= lim)%N.
Lemma ext_gb n g0 x g : gb g0 -> nodeb g0 x -> ext n g0 x g -> gb g.
Proof.
  intros Hgb Hnb He u v w h m Hf. destruct (ex_new _ _ _ _ He _ _ _ _ _ Hf) as [H|(_ & w1 & h1 & m1 & w2 & h2 & m2 & H1 & H2 & ->)]; [by eapply Hgb|].
  pose proof (Hnb _ _ _ _ _ (or_intror eq_refl) H1). pose proof (Hnb _ _ _ _ _ (or_introl eq_refl) H2). lia.
Qed.
Lemma contract_u_spec n max_pop g0 t node : gok n g0 -> gb g0 -> nodeb g0 node -> wtb n t -> tb t -> node < n ->
  exists g' t', contract_u red max_pop g0 t node = Some (g', t') /\ gb g' /\ wtb n t' /\ tb t' /\ cstep node (garcs g0) (garcs g').
Proof.
  intros Hg0 Hgb Hnb Ht Htb Hn. unfold contract_u.
  destruct (lookup_lt_is_Some_2 (g_in g0) node) as [ins Hins]; [rewrite (gk_in n g0 Hg0); lia|].
  destruct (lookup_lt_is_Some_2 (g_out g0) node) as [outs Houts]; [rewrite (gk_out n g0 Hg0); lia|].
  rewrite Hins, bind_S, Houts, bind_S.
  match goal with |- context [for_each ins ?b _] => set (body := b) end.
  destruct (for_each_inv
    (fun pre '(g, t) => ext n g0 node g /\ wtb n t /\ tb t /\ forall ia oa, ia ∈ pre -> oa ∈ outs -> ga_node ia <> ga_node oa ->
        bridged node g (ga_node ia) (ga_node oa) (ga_weight ia + ga_weight oa)%N) body ins (g0, t)) as ([g1 t1] & -> & Hext & Ht1 & Htb1 & Hbr).
  - split; [by apply ext_refl|]. split; [done|]. split; [done|]. intros ia oa ?%elem_of_nil. done.
  - intros pre ia post [g t'] Hsp (Hext & Ht' & Htb' & Hbr). assert (ia ∈ ins) as Hia by (rewrite Hsp; apply elem_of_app; right; by left).
    pose proof (ins_arc n g0 node Hg0 ins ia Hins Hia) as Hfi. destruct (gok_lt _ _ _ _ _ Hg0 Hfi) as (Hin & _ & Hinn). unfold body.
    assert (ga_weight ia <= lim)%N as Wi by exact (Hnb _ _ _ _ _ (or_intror eq_refl) Hfi).
    destruct (pin_source_spec n g t' (ga_node ia) node) as (t2 & E2 & Hp); [done|done|done|]. rewrite E2, bind_S. pose proof (pin_b _ _ _ _ Htb' E2) as Htb2.
    match goal with |- context [for_each outs ?b _] => set (body2 := b) end.
    destruct (for_each_inv
      (fun pre '(g', t) => ext n g0 node g' /\ shrinks g g' /\ pinned n g' node (ga_node ia) t /\ tb t /\ forall oa, oa ∈ pre -> ga_node ia <> ga_node oa ->
        bridged node g' (ga_node ia) (ga_node oa) (ga_weight ia + ga_weight oa)%N) body2 outs (g, t2)) as ([g2 t3] & -> & Hext2 & Hsh2 & Hp2 & Htb3 & Hbr2).
    + split; [done|]. split; [apply shrinks_refl|]. split; [done|]. split; [done|]. intros oa ?%elem_of_nil. done.
    + intros pre2 oa post2 [g3 t4] Hsp2 (He3 & Hs3 & Hp3 & Htb4 & Hb3). assert (oa ∈ outs) as Hoa by (rewrite Hsp2; apply elem_of_app; right; by left).
      pose proof (outs_arc n g0 node Hg0 outs oa Houts Hoa) as Hfo. destruct (gok_lt _ _ _ _ _ Hg0 Hfo) as (_ & Hout & Houtn). unfold body2.
      assert (ga_weight oa <= lim)%N as Wo by exact (Hnb _ _ _ _ _ (or_introl eq_refl) Hfo).
      destruct (decide (ga_node ia <> ga_node oa)) as [Hne|Heq].
      2:{ eexists. split; [done|]. cbv beta iota. split; [done|]. split; [done|]. split; [done|]. split; [done|]. intros oa' [Hpo| ->%elem_of_list_singleton]%elem_of_app ?; [by apply Hb3|done]. }
      rewrite (Hred (ga_weight ia + ga_weight oa)%N) by lia. rewrite bind_S.
      destruct (shorter_u_spec n g3 max_pop t4 (ga_node ia) node (ga_node oa) (ga_weight ia + ga_weight oa)%N) as (r & t5 & -> & Hp5 & Htb5 & Hr);
        [apply (ex_ok _ _ _ _ He3)|by eapply ext_gb|lia|done|done|done|by apply not_eq_sym|].
      rewrite bind_S. destruct r.
      * eexists. split; [done|]. cbv beta iota. split; [done|]. split; [done|]. split; [done|]. split; [done|].
        intros oa' [Hpo| ->%elem_of_list_singleton]%elem_of_app ?; [by apply Hb3|]. by apply Hr.
      * destruct (Htot (ga_hop ia + ga_hop oa)%N) as [hop ->]. rewrite bind_S. destruct ia as [xi wi hi mi], oa as [xo wo ho mo]. cbn in *.
        destruct (add_shortcut n g0 node Hg0 g3 xi xo wi hi mi wo ho mo hop) as (g5 & -> & He5 & Hs5 & Hb5); [done..|].
        rewrite bind_S. eexists. split; [done|]. cbv beta iota. split; [done|]. split; [by eapply shrinks_trans|]. split; [by eapply pinned_shrinks|]. split; [done|].
        intros oa' [Hpo| ->%elem_of_list_singleton]%elem_of_app ?; [|done]. eapply bridged_shrinks; [done|]. by apply Hb3.
    + eexists. split; [done|]. cbv beta iota. split; [done|]. split; [by eapply pinned_wtb|]. split; [done|].
      intros ia' oa [Hpi| ->%elem_of_list_singleton]%elem_of_app Hoa ?; [|by apply Hbr2]. eapply bridged_shrinks; [done|]. by apply Hbr.
  - rewrite bind_S. destruct (remove_all_spec n g1 node) as (g' & -> & Hok' & Hlev' & Hf'); [apply (ex_ok _ _ _ _ Hext)|done|].
    rewrite bind_S. eexists _, _. split; [done|]. split.
    { intros u v w h m. rewrite Hf'. destruct (decide _); [done|]. by eapply ext_gb. }
    split; [done|]. split; [done|]. split.
    + intros u v w m (h & Hf). rewrite Hf' in Hf. destruct (decide (u = node \/ v = node)) as [|Hne]; [done|].
      split; [naive_solver|]. split; [naive_solver|]. destruct (ex_new _ _ _ _ Hext _ _ _ _ _ Hf) as [H0|(-> & w1 & h1 & m1 & w2 & h2 & m2 & H1 & H2 & ->)].
      * left. by exists h.
      * right. split; [done|]. exists w1, m1, w2, m2. split; [by exists h1|]. split; [by exists h2|done].
    + intros u v L Hu Hv Hw. destruct (bridge_walk n g0 node Hg0 g1 Hext) with (u := u) (v := v) (L := L) as (L' & HL & HwL); [|done..|].
      { intros x y w1 h1 m1 w2 h2 m2 H1 H2 Hne.
        rewrite (gk_mirror n g0 Hg0), (fo_lookup _ _ _ _ Hins) in H1. rewrite (fo_lookup _ _ _ _ Houts) in H2.
        apply lkup_Some in H1, H2. by apply (Hbr (mkGarc x w1 h1 m1) (mkGarc y w2 h2 m2)). }
      destruct (dw_replace (avoid node (gaw g1)) (ew (garcs g'))) with (u := u) (v := v) (L := L') as (L2 & ? & ?); [|done|exists L2; split; [lia|done]].
      intros a b w (Ha & Hb & h & m & Hf). exists w. split; [done|]. apply dw_arc. exists m, h. rewrite Hf'. rewrite decide_False by naive_solver. done.
Qed.
Lemma estimate_u_spec n max_pop g t node k t' : gok n g -> gb g -> wtb n t -> tb t -> node < n -> estimate_u red max_pop g t node = Some (k, t') -> wtb n t' /\ tb t'.
Proof.
  intros Hg Hgb Ht Htb Hn. unfold estimate_u.
  destruct (lookup_lt_is_Some_2 (g_level g) node) as [lv Hlv]; [rewrite (gk_level n g Hg); lia|].
  destruct (lookup_lt_is_Some_2 (g_in g) node) as [ins Hins]; [rewrite (gk_in n g Hg); lia|].
  destruct (lookup_lt_is_Some_2 (g_out g) node) as [outs Houts]; [rewrite (gk_out n g Hg); lia|].
  rewrite Hlv, bind_S, Hins, bind_S, Houts, bind_S.
  match goal with |- context [for_each ins ?b _] => set (body := b) end.
  destruct (for_each_ok (fun '(_, _, t) => wtb n t /\ tb t) body ins (0%N, 0%N, t)) as ([[arcs hops] t1] & -> & Ht1 & Htb1).
  - done.
  - intros ia [[arcs hops] t2] Hia [Ht2 Htb2]. unfold body. pose proof (ins_arc n g node Hg ins ia Hins Hia) as Hfi. destruct (gok_lt _ _ _ _ _ Hg Hfi) as (Hin & _ & Hinn).
    destruct (pin_source_spec n g t2 (ga_node ia) node) as (t3 & E3 & Hp); [done|done|done|]. rewrite E3, bind_S. pose proof (pin_b _ _ _ _ Htb2 E3) as Htb3.
    match goal with |- context [for_each outs ?b _] => set (body2 := b) end.
    destruct (for_each_ok (fun '(_, _, t) => pinned n g node (ga_node ia) t /\ tb t) body2 outs (arcs, hops, t3)) as ([[a2 h2] t4] & -> & Hp4 & Htb4).
    + done.
    + intros oa [[a3 h3] t5] Hoa [Hp5 Htb5]. pose proof (outs_arc n g node Hg outs oa Houts Hoa) as Hfo. destruct (gok_lt _ _ _ _ _ Hg Hfo) as (_ & Hout & Houtn). unfold body2.
      assert (ga_weight ia <= 2 * lim)%N as Wi by exact (Hgb _ _ _ _ _ Hfi). assert (ga_weight oa <= 2 * lim)%N as Wo by exact (Hgb _ _ _ _ _ Hfo).
      destruct (decide (ga_node ia <> ga_node oa)) as [Hne|Heq]; [|by eexists]. rewrite (Hred (ga_weight ia + ga_weight oa)%N) by lia. rewrite bind_S.
      destruct (shorter_u_spec n g max_pop t5 (ga_node ia) node (ga_node oa) (ga_weight ia + ga_weight oa)%N) as (r & t6 & -> & Hp6 & Htb6 & Hr);
        [done|done|lia|done|done|done|by apply not_eq_sym|].
      rewrite bind_S. destruct r; [by eexists|]. destruct (Htot (a3 + 1)%N) as [a4 ->]. rewrite bind_S. destruct (Htot (h3 + ga_hop ia)%N) as [h4 ->]. rewrite bind_S.
      destruct (Htot (h4 + ga_hop oa)%N) as [h5 ->]. rewrite bind_S. by eexists.
    + eexists. split; [done|]. cbv beta iota. split; [by eapply pinned_wtb|done].
  - rewrite bind_S. intros E. repeat match type of E with (?m ≫= _) = _ => destruct m; [rewrite bind_S in E|done] end. injection E as <- <-. done.
Qed.

(** ** The loops *)
(** Arcs go from earlier to later nodes. *)
Definition shape (n : nat) (zs : list nat) (F : marcs) : Prop :=
  forall u v w m, F u v w m -> (exists i j, zs !! i = Some u /\ zs !! j = Some v /\ i < j) /\ forall z, m = Some z -> z < n.
Definition zwithin (zs : list nat) (g : chgraph) : Prop := forall u v, link g u v -> u ∈ zs /\ v ∈ zs.
Definition rawb (r : rawside) : Prop := forall u v w m, raw_arc r u v w m -> (w <= lim)%N.
Definition joined (r f : rawside) (F : marcs) : Prop := forall u v w m, raw_arc r u v w m <-> raw_arc f u v w m \/ F u v w m.

Lemma nothing_shape n zs : shape n zs (fun _ _ _ _ => False).
Proof. by intros ? ? ? ? []. Qed.
(** The node [x] is contracted first, then the nodes [zs]. *)
Lemma first_contracted n x zs g g1 outs ins f b f' b' F B : gok n g -> midb n g -> x ∉ zs -> zwithin (x :: zs) g ->
  (forall u v, link g1 u v -> u <> x /\ v <> x /\ (link g u v \/ (link g u x /\ link g x v))) ->
  g_out g !! x = Some outs -> g_in g !! x = Some ins -> raw_ok f -> raw_ok b ->
  joined f' (dump_arcs x outs f) F -> joined b' (dump_arcs x ins b) B -> shape n zs F -> shape n zs B ->
  zwithin zs g1 /\ exists F' B', joined f' f F' /\ joined b' b B' /\ shape n (x :: zs) F' /\ shape n (x :: zs) B' /\
    (rawb f' -> rawb b' -> nodeb g x) /\
    (cstep x (garcs g) (garcs g1) -> contr zs (garcs g1) F B -> contr (x :: zs) (garcs g) F' B').
Proof.
  intros Hg Hmid Hx Hz Hl Ho Hi Hf Hb HF HB SF SB.
  destruct (dump_spec x outs f Hf) as [_ Hdf]. destruct (dump_spec x ins b Hb) as [_ Hdb].
  split. { intros u v (Hu & Hv & H)%Hl. destruct H as [[H1 H2]%Hz|[[H1 _]%Hz [_ H2]%Hz]]; apply elem_of_cons in H1 as [?|?], H2 as [?|?]; done. }
  exists (fun u v w m => (u = x /\ garcs g x v w m) \/ F u v w m), (fun u v w m => (u = x /\ garcs g v x w m) \/ B u v w m).
  assert (joined f' f (fun u v w m => (u = x /\ garcs g x v w m) \/ F u v w m)) as HF'.
  { intros u v w m. rewrite (HF u v w m), Hdf, (outs_garcs n g x outs) by done. naive_solver. }
  assert (joined b' b (fun u v w m => (u = x /\ garcs g v x w m) \/ B u v w m)) as HB'.
  { intros u v w m. rewrite (HB u v w m), Hdb, (ins_garcs n g x ins) by done. naive_solver. }
  assert (forall v, v ∈ x :: zs -> v <> x -> exists j, zs !! j = Some v) as Hin.
  { intros v [->|[j Hj]%elem_of_list_lookup]%elem_of_cons ?; [done|by exists j]. }
  assert (forall E, shape n zs E -> shape n (x :: zs) E) as Hsh.
  { intros E HE u v w m ((i & j & H1 & H2 & H3) & H4)%HE. split; [|done]. exists (S i), (S j). split; [done|]. split; [done|lia]. }
  split; [done|]. split; [done|]. split; [|split; [|split]].
  - intros u v w m [(-> & h & H)|H]; [|by eapply (Hsh F SF)]. destruct (Hz x v) as [_ Hv]; [by eexists|]. destruct (gok_lt _ _ _ _ _ Hg H) as (_ & _ & Hne).
    destruct (Hin v Hv (not_eq_sym Hne)) as [j Hj]. split; [exists 0, (S j); split; [done|]; split; [done|lia]|]. intros z ->. by eapply Hmid.
  - intros u v w m [(-> & h & H)|H]; [|by eapply (Hsh B SB)]. destruct (Hz v x) as [Hv _]; [by eexists|]. destruct (gok_lt _ _ _ _ _ Hg H) as (_ & _ & Hne).
    destruct (Hin v Hv Hne) as [j Hj]. split; [exists 0, (S j); split; [done|]; split; [done|lia]|]. intros z ->. by eapply Hmid.
  - intros Rf Rb u v w h m [->| ->] H.
    + eapply (Rf x v w m). apply HF'. right. left. split; [done|]. by exists h.
    + eapply (Rb x u w m). apply HB'. right. left. split; [done|]. by exists h.
  - intros Hc Hr. econstructor; [apply func_garcs|intros; by eapply noloop_garcs|done|done|done|done].
Qed.
Lemma rank_loop n max_pop (order : list nat) : forall zs i g t f b g' t' f' b',
  gok n g -> midb n g -> raw_ok f -> raw_ok b -> (forall j, zs !! j = order !! (i + j) \/ length zs <= j) -> Forall (fun x => x < n) zs -> NoDup zs -> zwithin zs g ->
  for_n (length zs) i (fun i '(g, t, f, b) =>
      x ← order !! i;
      outs ← g_out g !! x; ins ← g_in g !! x;
      let f := dump_arcs x outs f in
      let b := dump_arcs x ins b in
      '(g, t) ← contract_u red max_pop g t x;
      Some (g, t, f, b)) (g, t, f, b) = Some (g', t', f', b') ->
  raw_ok f' /\ raw_ok b' /\ exists F B, joined f' f F /\ joined b' b B /\ shape n zs F /\ shape n zs B /\
    (rawb f' -> rawb b' -> gb g -> wtb n t -> tb t -> contr zs (garcs g) F B).
Proof.
  induction zs as [|x zs IH]; intros i g t f b g' t' f' b' Hg Hmid Hf Hb Hzs Hlt Hnd Hz; cbn [length for_n].
  - intros [= <- <- <- <-]. split; [done|]. split; [done|]. exists (fun _ _ _ _ => False), (fun _ _ _ _ => False).
    split; [intros u v w m; naive_solver|]. split; [intros u v w m; naive_solver|]. split; [apply nothing_shape|]. split; [apply nothing_shape|]. intros. apply contr_nil; cbn; tauto.
  - apply Forall_cons in Hlt as [Hx Hlt]. apply NoDup_cons in Hnd as [Hxz Hnd].
    destruct (Hzs 0) as [H0|H0]; [|cbn in H0; lia]. rewrite Nat.add_0_r in H0. cbn in H0. rewrite <- H0, bind_S.
    destruct (lookup_lt_is_Some_2 (g_out g) x) as [outs Ho]; [rewrite (gk_out n g Hg); lia|].
    destruct (lookup_lt_is_Some_2 (g_in g) x) as [ins Hi]; [rewrite (gk_in n g Hg); lia|].
    rewrite Ho, bind_S, Hi, bind_S. cbv zeta.
    destruct (contract_u red max_pop g t x) as [[g1 t1]|] eqn:Ec; [|done]. rewrite !bind_S.
    destruct (contract_u_shape n max_pop g t x g1 t1 Hg Hmid Hx Ec) as (Hg1 & Hm1 & _ & Hl1).
    destruct (dump_spec x outs f Hf) as [Hf1 _]. destruct (dump_spec x ins b Hb) as [Hb1 _]. intros E.
    assert (zwithin zs g1) as Hz1.
    { intros u v (Hu & Hv & H)%Hl1. destruct H as [[H1 H2]%Hz|[[H1 _]%Hz [_ H2]%Hz]]; apply elem_of_cons in H1 as [?|?], H2 as [?|?]; done. }
    eapply IH in E as (Hf' & Hb' & F & B & HF & HB & SF & SB & Hc); [|done..| |done|done|done].
    2:{ intros j. destruct (Hzs (S j)) as [Hj|Hj]; [left; change ((x :: zs) !! S j) with (zs !! j) in Hj; rewrite Hj; f_equal; lia|right; cbn in Hj; lia]. }
    destruct (first_contracted n x zs g g1 outs ins f b f' b' F B) as (_ & F' & B' & HF' & HB' & SF' & SB' & Hnb & Hc'); [done..|].
    split; [done|]. split; [done|]. exists F', B'. do 4 (split; [done|]). intros Rf Rb Hgb Ht Htb.
    destruct (contract_u_spec n max_pop g t x) as (g2 & t2 & E2 & Hgb2 & Ht2 & Htb2 & Hcs); [done|done|by apply Hnb|done|done|done|].
    rewrite Ec in E2. injection E2 as <- <-. apply Hc'; [done|]. by apply Hc.
Qed.

(** The queue of node importances *)
Lemma update_u_spec n max_pop level ns g t q m is g' t' q' is' :
  gok n g -> qref n q m -> flags_of n is ns -> (forall y, y ∈ ns -> y ∈ dom m) -> (forall y, y ∈ dom m -> y < n) ->
  for_each ns (update_neighbor_u red max_pop level) (g, t, q, is) = Some (g', t', q', is') ->
  is' = replicate n false /\ gok n g' /\ g_out g' = g_out g /\ (exists m', qref n q' m' /\ dom m' = dom m) /\ (gb g -> wtb n t -> tb t -> wtb n t' /\ tb t').
Proof.
  intros Hg Hq Hf Hns Hlt E.
  pose (P := fun (pre : list nat) '((g', t', q', is') : chgraph * wtest * queue * list bool) => gok n g' /\ g_out g' = g_out g /\ (exists m', qref n q' m' /\ dom m' = dom m) /\
     (gb g -> wtb n t -> tb t -> wtb n t' /\ tb t') /\ length is' = n /\ forall y, is' !! y = Some true -> y ∈ ns /\ y ∉ pre).
  assert (P ns (g', t', q', is')) as (Hg' & Ho & Hm' & Ht' & Hl & Hfl).
  { refine (for_each_inv' P _ _ _ _ E _ _).
    - split; [done|]. split; [done|]. split; [by exists m|]. split; [done|]. split; [apply Hf|]. intros y Hy. split; [by apply Hf|]. apply not_elem_of_nil.
    - intros pre x post [[[g1 t1] q1] is1] [[[g9 t9] q9] is9] Hsp (Hg1 & Ho1 & (m1 & Hq1 & Hd1) & Ht1 & Hl1 & Hf1).
      assert (x ∈ ns) as Hx by (rewrite Hsp; apply elem_of_app; right; by left).
      assert (x < n) as Hxn by auto. unfold update_neighbor_u. rewrite wr_Some, bind_S by lia.
      destruct (raise_level_spec n g1 x level Hg1 Hxn) as (g2 & -> & Hg2 & Ho2 & Hi2). rewrite bind_S.
      destruct (estimate_u red max_pop g2 t1 x) as [[k t2]|] eqn:Ee; [|done]. rewrite bind_S.
      assert (is_Some (m1 !! x)) as [k0 Hk0]. { apply elem_of_dom. rewrite Hd1. auto. }
      rewrite (contains_id_spec n q1 m1 x Hq1 Hxn), bind_S. rewrite bool_decide_eq_true_2 by (by exists k0). cbn [chk]. rewrite bind_S.
      rewrite (get_key_spec n q1 m1 x k0 Hq1 Hk0), bind_S.
      assert (exists q3 m3, (if decide (k0 < k)%N then '(_, q) ← increase_key q1 (x, k); Some q
         else if decide (k < k0)%N then '(_, q) ← decrease_key q1 (x, k); Some q else Some q1) = Some q3 /\ qref n q3 m3 /\ dom m3 = dom m) as (q3 & m3 & -> & Hq3 & Hd3).
      { assert (dom (<[x:=k]> m1) = dom m) as Hdi. { rewrite dom_insert_L, Hd1. assert (x ∈ dom m) by auto. set_solver. }
        destruct (decide (k0 < k)%N) as [Hlt1|Hge1]; [|destruct (decide (k < k0)%N) as [Hlt2|Hge2]].
        - destruct (increase_key_spec n q1 m1 x k k0 Hq1 Hk0) as (q3 & -> & Hq3). rewrite bind_S. rewrite decide_True in Hq3 by done. by exists q3, (<[x:=k]> m1).
        - destruct (decrease_key_spec n q1 m1 x k k0 Hq1 Hk0) as (q3 & -> & Hq3). rewrite bind_S. rewrite decide_True in Hq3 by done. by exists q3, (<[x:=k]> m1).
        - by exists q1, m1. }
      rewrite bind_S. intros [= <- <- <- <-]. split; [done|]. split; [congruence|]. split; [by exists m3|].
      split. { intros Hgb Ht Htb. destruct (Ht1 Hgb Ht Htb) as [? ?]. eapply (estimate_u_spec n); [exact Hg2| |done|done|done|exact Ee].
        intros u v w h mm. unfold gb in Hgb. rewrite Ho2, Ho1. apply Hgb. }
      split; [by rewrite insert_length|]. intros y [(_ & ? & _)|[Hne Hy]]%list_lookup_insert_Some; [done|]. destruct (Hf1 y Hy) as [? ?]. split; [done|].
      intros [?|?%elem_of_list_singleton]%elem_of_app; [done|congruence]. }
  split; [|done]. apply list_eq. intros y.
  destruct (decide (y < n)) as [Hy|Hy].
  - rewrite lookup_replicate_2 by done. destruct (lookup_lt_is_Some_2 is' y) as [[] Hb]; [lia| |done]. by destruct (Hfl y Hb).
  - rewrite !lookup_ge_None_2; [done|rewrite replicate_length; lia|lia].
Qed.
Record bshape (n : nat) (s : bstate) (m : gmap nat N) : Prop := {
  bs_graph : gok n (b_graph s);
  bs_mid : midb n (b_graph s);
  bs_queue : qref n (b_queue s) m;
  bs_dom : forall x, x ∈ dom m -> x < n;
  bs_within : forall u v, link (b_graph s) u v -> u ∈ dom m /\ v ∈ dom m;
  bs_rank : length (b_rank s) = n;
  bs_order : length (b_order s) = n;
  bs_is : b_is s = replicate n false;
  bs_fwd : raw_ok (b_fwd s);
  bs_bwd : raw_ok (b_bwd s) }.
Lemma garcs_link g u v w m : garcs g u v w m -> link g u v.
Proof. intros (h & H). by eexists. Qed.
Lemma next_u_spec n max_pop i s m s' :
  bshape n s m -> m <> ∅ -> i < n -> contract_next_u red max_pop i s = Some s' ->
  exists m' x outs ins, bshape n s' m' /\ x ∈ dom m /\ dom m' = dom m ∖ {[x]} /\
    g_out (b_graph s) !! x = Some outs /\ g_in (b_graph s) !! x = Some ins /\
    b_rank s' = <[x:=i]> (b_rank s) /\ b_order s' = <[i:=x]> (b_order s) /\
    b_fwd s' = dump_arcs x outs (b_fwd s) /\ b_bwd s' = dump_arcs x ins (b_bwd s) /\
    (forall u v, link (b_graph s') u v -> u <> x /\ v <> x /\ (link (b_graph s) u v \/ (link (b_graph s) u x /\ link (b_graph s) x v))) /\
    (nodeb (b_graph s) x -> gb (b_graph s) -> wtb n (b_test s) -> tb (b_test s) ->
       cstep x (garcs (b_graph s)) (garcs (b_graph s')) /\ gb (b_graph s') /\ wtb n (b_test s') /\ tb (b_test s')).
Proof.
  intros [Hg Hmid Hq Hd Hw Hr Ho His Hf Hb] Hne Hi. unfold contract_next_u.
  destruct (pop_spec n _ m Hq Hne) as (x & k & q' & -> & [Hx _] & Hq'). rewrite bind_S.
  assert (x ∈ dom m) as Hxd by (apply elem_of_dom; by exists k). assert (x < n) as Hxn by auto.
  rewrite (wr_Some (b_rank s)) by lia. rewrite bind_S. rewrite (wr_Some (b_order s)) by lia. rewrite bind_S. cbv zeta.
  destruct (lookup_lt_is_Some_2 (g_out (b_graph s)) x) as [outs Hou]; [rewrite (gk_out n _ Hg); lia|].
  destruct (lookup_lt_is_Some_2 (g_in (b_graph s)) x) as [ins Hin]; [rewrite (gk_in n _ Hg); lia|].
  rewrite Hin, bind_S, Hou, bind_S.
  assert (forall a, a ∈ ins -> ga_node a <> x /\ ga_node a < n /\ ga_node a ∈ dom m) as Hins.
  { intros a Ha. pose proof (ins_arc n _ x Hg ins a Hin Ha) as Hga. destruct (gok_lt _ _ _ _ _ Hg Hga) as (? & _ & ?). split; [done|]. split; [done|]. apply (Hw (ga_node a) x). by eexists. }
  assert (forall a, a ∈ outs -> ga_node a <> x /\ ga_node a < n /\ ga_node a ∈ dom m) as Houts.
  { intros a Ha. pose proof (outs_arc n _ x Hg outs a Hou Ha) as Hga. destruct (gok_lt _ _ _ _ _ Hg Hga) as (_ & ? & ?). split; [by apply not_eq_sym|]. split; [done|]. apply (Hw x (ga_node a)). by eexists. }
  destruct (mark_neighbors_spec n x ins [] (b_is s)) as (ns1 & is1 & -> & Hf1 & Hn1).
  { rewrite His. split; [apply replicate_length|]. intros y. split; [intros [? ?]%lookup_replicate; done|intros [?%elem_of_nil ?]; done]. }
  { intros a Ha. destruct (Hins a Ha) as (? & ? & ?). done. }
  rewrite bind_S.
  destruct (mark_neighbors_spec n x outs ns1 is1 Hf1) as (ns2 & is2 & -> & Hf2 & Hn2).
  { intros a Ha. destruct (Houts a Ha) as (? & ? & ?). done. }
  rewrite bind_S.
  destruct (lookup_lt_is_Some_2 (g_level (b_graph s)) x) as [lv Hlv]; [rewrite (gk_level n _ Hg); lia|]. rewrite Hlv, bind_S.
  destruct (Htot (lv + 1)%N) as [lv1 ->]. rewrite bind_S.
  destruct (contract_u red max_pop (b_graph s) (b_test s) x) as [[g1 t1]|] eqn:Ec; [|done]. rewrite bind_S.
  destruct (contract_u_shape n max_pop (b_graph s) (b_test s) x g1 t1 Hg Hmid Hxn Ec) as (Hg1 & Hm1 & _ & Hl1).
  assert (dom (delete x m) = dom m ∖ {[x]}) as Hdd by apply dom_delete_L.
  destruct (for_each ns2 _ _) as [[[[g2 t2] q2] is3]|] eqn:Eu; [|done]. rewrite bind_S. intros [= <-].
  eapply update_u_spec in Eu as (-> & Hg2 & Ho2 & (m2 & Hq2 & Hd2) & Ht2); [|done|done|done| |].
  2:{ intros y Hy. rewrite Hdd. destruct (Hn2 y Hy) as [Hy1|(a & Ha & ->)].
    - destruct (Hn1 y Hy1) as [?%elem_of_nil|(a & Ha & ->)]; [done|]. destruct (Hins a Ha) as (? & ? & ?). set_solver.
    - destruct (Houts a Ha) as (? & ? & ?). set_solver. }
  2:{ intros y. rewrite Hdd. intros Hy. apply Hd. set_solver. }
  assert (forall u v, gf g2 u v = gf g1 u v) as Hgf by (intros u v; by rewrite Ho2).
  assert (forall u v, link g2 u v -> u <> x /\ v <> x /\ (link (b_graph s) u v \/ (link (b_graph s) u x /\ link (b_graph s) x v))) as Hl2.
  { intros u v. unfold link at 1. rewrite Hgf. apply Hl1. }
  eexists m2, x, outs, ins. cbn. split; [|split; [done|]; split; [by rewrite Hd2|]; do 6 (split; [done|]); split; [done|]].
  - split; cbn; try done.
    + intros u v w h z. rewrite Hgf. apply Hm1.
    + intros y. rewrite Hd2, Hdd. intros Hy. apply Hd. set_solver.
    + intros u v (Hu & Hv & H)%Hl2. rewrite Hd2, Hdd. destruct H as [[? ?]%Hw|[[? _]%Hw [_ ?]%Hw]]; set_solver.
    + by rewrite insert_length.
    + by rewrite insert_length.
    + by apply dump_spec.
    + by apply dump_spec.
  - intros Hnb Hgb Ht Htb. destruct (contract_u_spec n max_pop (b_graph s) (b_test s) x) as (g3 & t3 & E3 & Hgb3 & Ht3 & Htb3 & Hcs); [done..|].
    rewrite Ec in E3. injection E3 as <- <-. rewrite (garcs_out g2 g1 Ho2). split; [done|]. split; [|by apply Ht2]. intros u v w h mm. rewrite Hgf. apply Hgb3.
Qed.
Lemma all_u_spec n max_pop : forall fuel i s m s',
  bshape n s m -> i + size (dom m) = n -> contract_all_u red max_pop fuel i s = Some s' ->
  exists zs, length zs = size (dom m) /\ NoDup zs /\ (forall x, x ∈ zs <-> x ∈ dom m) /\
    length (b_rank s') = n /\ length (b_order s') = n /\
    (forall j, j < i -> b_order s' !! j = b_order s !! j) /\ (forall j, j < length zs -> b_order s' !! (i + j) = zs !! j) /\
    (forall x, x ∉ zs -> b_rank s' !! x = b_rank s !! x) /\ (forall j x, zs !! j = Some x -> b_rank s' !! x = Some (i + j)) /\
    raw_ok (b_fwd s') /\ raw_ok (b_bwd s') /\ exists F B, joined (b_fwd s') (b_fwd s) F /\ joined (b_bwd s') (b_bwd s) B /\ shape n zs F /\ shape n zs B /\
    (rawb (b_fwd s') -> rawb (b_bwd s') -> gb (b_graph s) -> wtb n (b_test s) -> tb (b_test s) -> contr zs (garcs (b_graph s)) F B).
Proof.
  induction fuel as [|fuel IH]; intros i s m s' Hs Hi; cbn [contract_all_u]; [done|].
  rewrite (q_empty_spec n _ m) by apply Hs. destruct (bool_decide (m = ∅)) eqn:Em.
  - apply bool_decide_eq_true in Em as ->. intros [= <-]. exists [].
    rewrite dom_empty_L in *. split; [done|]. split; [constructor|]. split; [intros; set_solver|].
    split; [apply Hs|]. split; [apply Hs|]. split; [done|]. split; [cbn; lia|]. split; [done|]. split; [done|]. split; [apply Hs|]. split; [apply Hs|].
    exists (fun _ _ _ _ => False), (fun _ _ _ _ => False).
    split; [intros u v w mm; naive_solver|]. split; [intros u v w mm; naive_solver|]. split; [apply nothing_shape|]. split; [apply nothing_shape|]. intros. apply contr_nil; cbn; tauto.
  - apply bool_decide_eq_false in Em.
    assert (size (dom m) <> 0) as Hsz. { intros E. apply Em. apply dom_empty_inv_L. by apply leibniz_equiv, size_empty_inv. }
    destruct (contract_next_u red max_pop i s) as [s1|] eqn:E1; [|done]. rewrite bind_S. intros E.
    destruct (next_u_spec n max_pop i s m s1) as (m1 & x & outs & ins & Hs1 & Hx & Hd1 & Hou & Hin & Hr & Ho & Hf & Hb & Hl & Hst); [done|done|lia|done|].
    assert (size (dom m1) + 1 = size (dom m)) as Hsz1.
    { rewrite Hd1. rewrite size_difference by set_solver. rewrite size_singleton. lia. }
    destruct (IH (S i) s1 m1 s') as (zs & Hlz & Hnd & Hzs & Hlr & Hlo & Ho1 & Ho2 & Hr1 & Hr2 & Hf' & Hb' & F & B & HF & HB & SF & SB & Hc); [done|lia|done|].
    assert (x ∉ zs) as Hxz by (rewrite Hzs, Hd1; set_solver).
    assert (forall y, y ∈ x :: zs <-> y ∈ dom m) as Hin2. { intros y. rewrite elem_of_cons, Hzs, Hd1. destruct (decide (y = x)) as [->|]; set_solver. }
    destruct (first_contracted n x zs (b_graph s) (b_graph s1) outs ins (b_fwd s) (b_bwd s) (b_fwd s') (b_bwd s') F B)
      as (_ & F' & B' & HF' & HB' & SF' & SB' & Hnb & Hc'); [apply Hs|apply Hs|done| |done|done|done|apply Hs|apply Hs|by rewrite <- Hf|by rewrite <- Hb|done|done|].
    { intros u v [? ?]%(bs_within _ _ _ Hs). by rewrite !Hin2. }
    exists (x :: zs). split; [cbn; lia|]. split; [by apply NoDup_cons|]. split; [done|]. split; [done|]. split; [done|].
    split. { intros j Hj. rewrite Ho1 by lia. rewrite Ho. by rewrite list_lookup_insert_ne by lia. }
    split. { intros [|j] Hj; cbn in Hj.
      - rewrite Nat.add_0_r. rewrite Ho1 by lia. rewrite Ho. rewrite list_lookup_insert; [done|]. rewrite (bs_order _ _ _ Hs). lia.
      - replace (i + S j) with (S i + j) by lia. rewrite Ho2 by lia. done. }
    split. { intros y Hy. apply not_elem_of_cons in Hy as [? ?]. rewrite Hr1 by done. rewrite Hr. by rewrite list_lookup_insert_ne. }
    split. { intros [|j] y Hy.
      - injection Hy as <-. rewrite Hr1 by done. rewrite Hr, Nat.add_0_r. apply list_lookup_insert. rewrite (bs_rank _ _ _ Hs). by apply (bs_dom _ _ _ Hs).
      - rewrite (Hr2 j y Hy). f_equal. lia. }
    split; [done|]. split; [done|]. exists F', B'. do 4 (split; [done|]). intros Rf Rb Hgb Ht Htb.
    destruct (Hst (Hnb Rf Rb) Hgb Ht Htb) as (Hcs & Hgb1 & Ht1 & Htb1). apply Hc'; [done|]. by apply Hc.
Qed.
Lemma order_u_spec n max_pop g rank order f b :
  gok n g -> midb n g -> gb g -> build_order_u red max_pop g = Some (rank, order, f, b) ->
  length order = n /\ perm order /\ inverse_of order rank /\ raw_ok f /\ raw_ok b /\ shape n order (raw_arc f) /\ shape n order (raw_arc b) /\
  (rawb f -> rawb b -> contr order (garcs g) (raw_arc f) (raw_arc b)).
Proof.
  intros Hg Hmid Hgb. unfold build_order_u. rewrite (gk_out n g Hg). cbv zeta.
  match goal with |- context [for_range 0 n ?b _] => set (body := b) end.
  destruct (for_range 0 n body (new_wtest n, new_queue n)) as [[t q]|] eqn:E; [|done]. rewrite bind_S.
  pose (P := fun (i : nat) '((t, q) : wtest * queue) => wtb n t /\ tb t /\ exists m, qref n q m /\ forall x, x ∈ dom m <-> x < i).
  assert (P n (t, q)) as (Ht & Htb & m & Hq & Hm).
  { refine (for_range_holds P body n _ _ E _ _).
    - split; [apply wtb_new|]. split; [apply tb_new|]. exists ∅. split; [apply qref_new|]. intros x. rewrite dom_empty_L. split; [set_solver|lia].
    - intros i [t1 q1] [t2 q2] Hi (Ht & Htb & m & Hq & Hm). unfold body.
      destruct (estimate_u red max_pop g t1 i) as [[k t']|] eqn:Ee; [|done]. rewrite bind_S. eapply (estimate_u_spec n) in Ee as [Ht' Htb']; [|done..|lia].
      destruct (push_spec n q1 m i k Hq) as (q' & -> & Hq'); [lia| |].
      { apply not_elem_of_dom. rewrite Hm. lia. }
      rewrite bind_S. intros [= <- <-]. split; [done|]. split; [done|]. exists (<[i:=k]> m). split; [done|].
      intros x. rewrite dom_insert_L, elem_of_union, elem_of_singleton, Hm. lia. }
  assert (dom m = list_to_set (seq 0 n)) as Hdm. { apply set_eq. intros x. rewrite Hm, elem_of_list_to_set, elem_of_seq. lia. }
  assert (size (dom m) = n) as Hsz. { rewrite Hdm, size_list_to_set by apply NoDup_seq. apply seq_length. }
  destruct (contract_all_u red max_pop (S n) 0 _) as [s'|] eqn:Ea; [|done]. rewrite bind_S. intros [= <- <- <- <-].
  eapply all_u_spec in Ea as (zs & Hlz & Hnd & Hzs & Hlr & Hlo & _ & Ho & _ & Hr & Hf & Hb & F & B & HF & HB & SF & SB & Hc); [| |exact (eq_trans (Nat.add_0_l _) Hsz)].
  2:{ split; cbn; try done; [intros x Hx; by apply Hm| |apply replicate_length|apply replicate_length].
    intros u v [z H]. destruct (gok_lt _ _ _ _ _ Hg H) as (? & ? & _). by rewrite !Hm. }
  cbn in *. assert (b_order s' = zs) as Hz.
  { apply list_eq. intros j. destruct (decide (j < length zs)) as [Hj|Hj]; [by rewrite <- Ho by done|].
    rewrite !lookup_ge_None_2; [done|lia|lia]. }
  assert (perm zs) as Hpz. { apply NoDup_bounded_perm; [done|]. intros x Hx. rewrite Hlz, Hsz. apply Hm. by apply Hzs. }
  assert (forall u v w mm, raw_arc (b_fwd s') u v w mm <-> F u v w mm) as HF1. { intros u v w mm. rewrite (HF u v w mm). pose proof (raw_arc_empty u v w mm). naive_solver. }
  assert (forall u v w mm, raw_arc (b_bwd s') u v w mm <-> B u v w mm) as HB1. { intros u v w mm. rewrite (HB u v w mm). pose proof (raw_arc_empty u v w mm). naive_solver. }
  rewrite Hz. split; [lia|]. split; [done|].
  split. { split; [lia|]. intros j x. split; [by apply Hr|]. intros Hx.
    assert (x ∈ zs) as [j' Hj']%elem_of_list_lookup. { apply Hzs, Hm. apply lookup_lt_Some in Hx. lia. }
    pose proof (Hr _ _ Hj') as Hx'. rewrite Hx in Hx'. cbn in Hx'. injection Hx' as ->. done. }
  split; [done|]. split; [done|]. split; [intros u v w mm H; by eapply SF, HF1|]. split; [intros u v w mm H; by eapply SB, HB1|].
  intros Rf Rb. eapply contr_iff; [by apply Hc|exact HF1|exact HB1].
Qed.

(** ** The three functions *)
Lemma shape_ups n order rank F : shape n order F -> inverse_of order rank -> ups rank F.
Proof. intros H [_ Hi] u v w m ((i & j & H1 & H2 & H3) & _)%H. exists i, j. split; [by apply Hi|]. split; [by apply Hi|done]. Qed.
(** All weights of the arcs are weights of the hierarchy. *)
Lemma finish_weights asserts n a rank order f b c : raw_ok f -> raw_ok b -> perm rank -> length rank = n -> ups rank (raw_arc f) -> ups rank (raw_arc b) ->
  (forall u v w z, raw_arc f u v w (Some z) -> z < n) -> (forall u v w z, raw_arc b u v w (Some z) -> z < n) -> finish_ch asserts n a rank order f b = Some c ->
  (forall u v w m, raw_arc f u v w m -> w ∈ cs_weight (ch_fwd c)) /\ (forall u v w m, raw_arc b u v w m -> w ∈ cs_weight (ch_bwd c)).
Proof.
  intros Hf Hb Hp Hl Uf Ub Mf Mb. unfold finish_ch, make_internal_nodes_and_rank_coincide.
  destruct (renumber_side_spec rank f) as (f1 & -> & Hf1 & Af1); [done|done|by rewrite Hl|]. rewrite bind_S.
  destruct (renumber_side_spec rank b) as (b1 & -> & Hb1 & Ab1); [done|done|by rewrite Hl|]. rewrite !bind_S.
  assert (forall x y, rank !! x = Some y -> y < n) as Hlt. { intros x y Hy. rewrite <- Hl. by eapply perm_lookup_lt. }
  destruct (sort_side_spec asserts n f1 Hf1) as (f2 & ff & -> & Hf2 & _ & _ & _ & Af2). { intros x y w m (u & v & m0 & _ & Hx & Hy & _)%Af1. split; by eapply Hlt. }
  rewrite bind_S.
  destruct (sort_side_spec asserts n b1 Hb1) as (b2 & bf & -> & Hb2 & _ & _ & _ & Ab2). { intros x y w m (u & v & m0 & _ & Hx & Hy & _)%Ab1. split; by eapply Hlt. }
  rewrite bind_S. unfold build_unpacking_information.
  destruct (invert_vector _ _) as [fo|]; [|done]. rewrite bind_S. destruct (unpack_side true _ _ _ _ _ _ _ _ _ _ _ _) as [[[? ?] ?]|]; [|done]. rewrite bind_S.
  destruct (unpack_side false _ _ _ _ _ _ _ _ _ _ _ _) as [[[? ?] ?]|]; [|done]. rewrite bind_S. intros [= <-]. cbn. split.
  - intros u v w m H. destruct (Uf _ _ _ _ H) as (x & y & Hx & Hy & _).
    assert (raw_arc f2 x y w (m ≫= (rank !!.))) as (i & _ & _ & Hi & _). { apply Af2, Af1. by exists u, v, m. } by eapply elem_of_list_lookup_2.
  - intros u v w m H. destruct (Ub _ _ _ _ H) as (x & y & Hx & Hy & _).
    assert (raw_arc b2 x y w (m ≫= (rank !!.))) as (i & _ & _ & Hi & _). { apply Ab2, Ab1. by exists u, v, m. } by eapply elem_of_list_lookup_2.
Qed.
(** The weights of a hierarchy *)
Definition chb (c : ch) : Prop := Forall (fun x => (x <= lim)%N) (cs_weight (ch_fwd c)) /\ Forall (fun x => (x <= lim)%N) (cs_weight (ch_bwd c)).
Lemma finish_rawb asserts n a rank order f b c : raw_ok f -> raw_ok b -> perm rank -> length rank = n -> ups rank (raw_arc f) -> ups rank (raw_arc b) ->
  (forall u v w z, raw_arc f u v w (Some z) -> z < n) -> (forall u v w z, raw_arc b u v w (Some z) -> z < n) -> finish_ch asserts n a rank order f b = Some c -> chb c ->
  rawb f /\ rawb b.
Proof.
  intros H1 H2 H3 H4 H5 H6 H7 H8 H9 [Wf Wb]. destruct (finish_weights asserts n a rank order f b c) as [F1 F2]; [done..|]. rewrite Forall_forall in Wf. rewrite Forall_forall in Wb.
  split; intros u v w m H; [by eapply Wf, F1|by eapply Wb, F2].
Qed.
Lemma start_small asserts n tail head w : arc_list n tail head w -> Forall (fun x => (x <= 2 * lim)%N) w ->
  exists a g, clean_arcs asserts n tail head w = Some a /\ cleaned tail head w (a_tail a) (a_head a) (a_weight a) (a_id a) /\
    new_graph n (a_tail a) (a_head a) (a_weight a) = Some g /\ gok n g /\ midb n g /\ gb g /\
    (forall u v x m, garcs g u v x m <-> m = None /\ arcs_of (a_tail a) (a_head a) (a_weight a) u v x).
Proof.
  intros Ha Hw. destruct (start_graph asserts _ tail head w Ha) as (a & g & H1 & Hcl & H2 & Hok & Hga). exists a, g. split; [done|]. split; [done|]. split; [done|]. split; [done|].
  destruct (cl_len _ _ _ _ _ _ _ Hcl) as (L1 & L2 & L3). split; [|split; [|done]].
  - intros u v x h z H. assert (garcs g u v x (Some z)) as [? _]%Hga by (by exists h). done.
  - intros u v x h m H. assert (garcs g u v x m) as [_ (i & Hu & Hv & Hx)]%Hga by (by exists h).
    destruct (lookup_lt_is_Some_2 (a_id a) i) as [e He]; [apply lookup_lt_Some in Hu; lia|].
    destruct (cl_sound _ _ _ _ _ _ _ Hcl i u v x e) as (_ & (_ & _ & Hwe) & _); [done|done|]. rewrite Forall_lookup in Hw. by eapply Hw.
Qed.
Theorem small_given_rank asserts max_pop rank tail head w c : perm rank -> arc_list (length rank) tail head w -> Forall (fun x => (x <= 2 * lim)%N) w ->
  ch_build_given_rank_u red asserts max_pop rank tail head w = Some c -> chb c -> ch_full (length rank) tail head w c.
Proof.
  intros Hp Hin Hw. unfold ch_build_given_rank_u. cbv zeta.
  destruct (start_small asserts _ tail head w Hin Hw) as (a & g & -> & Hcl & Hg & Hok & Hmid & Hgb & Hga). rewrite bind_S, Hg, bind_S.
  unfold given_rank_u. destruct (invert_permutation_correct rank Hp) as (order & -> & Hinv & Hpo). rewrite bind_S.
  assert (length order = length rank) as Hlo by (destruct Hinv; lia). pose proof (inverse_of_sym _ _ Hinv) as Hinv'.
  rewrite (gk_out _ g Hok). unfold for_range. rewrite Nat.sub_0_r, <- Hlo. cbv zeta.
  match goal with |- context [for_n _ 0 ?b ?s0] => destruct (for_n (length order) 0 b s0) as [[[[g' t'] f] b']|] eqn:E end; [|done]. rewrite !bind_S. intros Ef Hc.
  rewrite Hlo in Ef. eapply (rank_loop (length rank) max_pop order order) in E as (Hf & Hb & F & B & HF & HB & SF & SB & Hcon);
    [|done|done|done|done|by left| |by apply perm_NoDup|].
  2:{ apply Forall_forall. intros x [i Hi]%elem_of_list_lookup. rewrite <- Hlo. by eapply perm_lookup_lt. }
  2:{ intros u v [z H]. destruct (gok_lt _ _ _ _ _ Hok H) as (Hu & Hv & _). rewrite <- Hlo in Hu, Hv.
    destruct (perm_surj order u Hpo Hu) as [i Hi], (perm_surj order v Hpo Hv) as [j Hj]. split; by eapply elem_of_list_lookup_2. }
  assert (forall u v w mm, raw_arc f u v w mm <-> F u v w mm) as HF1. { intros u v x mm. rewrite (HF u v x mm). pose proof (raw_arc_empty u v x mm). naive_solver. }
  assert (forall u v w mm, raw_arc b' u v w mm <-> B u v w mm) as HB1. { intros u v x mm. rewrite (HB u v x mm). pose proof (raw_arc_empty u v x mm). naive_solver. }
  assert (shape (length rank) order (raw_arc f)) as SF1 by (intros u v x mm H; by eapply SF, HF1).
  assert (shape (length rank) order (raw_arc b')) as SB1 by (intros u v x mm H; by eapply SB, HB1).
  pose proof (shape_ups _ _ _ _ SF1 Hinv') as Uf. pose proof (shape_ups _ _ _ _ SB1 Hinv') as Ub.
  destruct (finish_rawb asserts (length rank) a rank order f b' c) as [Rf Rb]; [done..| | |done|done|].
  { intros u v x z H. by eapply SF1. }
  { intros u v x z H. by eapply SB1. }
  destruct (finish_from_contr asserts (length rank) tail head w a g order rank order f b') as (c' & E' & _ & _ & Hfull); [done..| |done|done|done|done|done|].
  { eapply contr_iff; [apply Hcon; [done|done|done|rewrite Hlo; apply wtb_new|apply tb_new]|exact HF1|exact HB1]. }
  rewrite Hlo. rewrite Ef in E'. by injection E' as <-.
Qed.
Theorem small_given_order asserts max_pop order tail head w c : perm order -> arc_list (length order) tail head w -> Forall (fun x => (x <= 2 * lim)%N) w ->
  ch_build_given_order_u red asserts max_pop order tail head w = Some c -> chb c -> ch_full (length order) tail head w c.
Proof.
  intros Hp Hin Hw. unfold ch_build_given_order_u. destruct (invert_permutation_correct order Hp) as (rank & -> & [Hl _] & Hpr). rewrite bind_S. rewrite <- Hl in Hin |- *. by apply small_given_rank.
Qed.
Theorem small_build asserts max_pop n tail head w c : arc_list n tail head w -> Forall (fun x => (x <= 2 * lim)%N) w ->
  ch_build_u red asserts max_pop n tail head w = Some c -> chb c -> ch_full n tail head w c.
Proof.
  intros Hin Hw. unfold ch_build_u.
  destruct (start_small asserts _ tail head w Hin Hw) as (a & g & -> & Hcl & Hg & Hok & Hmid & Hgb & Hga). rewrite bind_S, Hg, bind_S.
  destruct (build_order_u red max_pop g) as [[[[rank zs] f] b]|] eqn:E; [|done]. rewrite bind_S.
  apply (order_u_spec n) in E as (Hlz & Hpz & Hinv & Hf & Hb & SF & SB & Hcon); [|done..].
  pose proof (shape_ups _ _ _ _ SF Hinv) as U1. pose proof (shape_ups _ _ _ _ SB Hinv) as U2. pose proof (proj1 Hinv) as Hlr.
  assert (forall E, ups rank E -> forall u v x m, E u v x m -> u < n /\ v < n) as Hlt.
  { intros E HE u v x m H. destruct (HE _ _ _ _ H) as (i & j & Hi & Hj & _). rewrite <- Hlz, <- Hlr. split; by eapply lookup_lt_Some. }
  destruct (sort_side_spec asserts n f Hf (Hlt _ U1)) as (f2 & ff & -> & Hf2 & Hcf & _ & Hof & Hff). rewrite bind_S.
  destruct (sort_side_spec asserts n b Hb (Hlt _ U2)) as (b2 & bf & -> & Hb2 & Hcb & _ & Hob & Hbb). rewrite bind_S.
  assert (forall x y e, arc_from_to ff (r_head f2) x y e -> exists v m, raw_arc f x y v m) as HF.
  { intros x y e [He%Hof Hy]. destruct (raw_arc_at f2 e x Hf2 He) as (y' & v & m & Hy' & _ & _ & Ha). rewrite Hy in Hy'. injection Hy' as <-. exists v, m. by apply Hff. }
  assert (forall x y e, arc_from_to bf (r_head b2) x y e -> exists v m, raw_arc b x y v m) as HB.
  { intros x y e [He%Hob Hy]. destruct (raw_arc_at b2 e x Hb2 He) as (y' & v & m & Hy' & _ & _ & Ha). rewrite Hy in Hy'. injection Hy' as <-. exists v, m. by apply Hbb. }
  destruct (optimize_order_for_cache_spec n rank ff (r_head f2) bf (r_head b2)) as (nr & no & -> & Hln & Hpn & Hinvn & Hup).
  - lia.
  - by eapply inverse_of_perm.
  - done.
  - done.
  - intros x y [(e & He)|(e & He)]; [apply HF in He as (v & m & Ha); by eapply U1|apply HB in He as (v & m & Ha); by eapply U2].
  - rewrite bind_S. intros Ef Hc.
    assert (ups nr (raw_arc f2)) as V1. { intros u v x m (i & H1 & H2 & _). apply Hup. left. exists i. split; [by apply Hof|done]. }
    assert (ups nr (raw_arc b2)) as V2. { intros u v x m (i & H1 & H2 & _). apply Hup. right. exists i. split; [by apply Hob|done]. }
    destruct (finish_rawb asserts n a nr no f2 b2 c) as [Rf Rb]; [done|done|by eapply inverse_of_perm|destruct Hinvn; lia|done|done| | |done|done|].
    { intros u v x z H%Hff. by eapply SF. }
    { intros u v x z H%Hbb. by eapply SB. }
    destruct (finish_from_contr asserts n tail head w a g zs nr no f2 b2) as (c' & E' & _ & _ & Hco); try done.
    + eapply contr_iff; [apply Hcon| |].
      * intros u v x m H. eapply Rf. by apply Hff.
      * intros u v x m H. eapply Rb. by apply Hbb.
      * intros u v x m; apply Hff.
      * intros u v x m; apply Hbb.
    + rewrite Ef in E'. by injection E' as <-.
Qed.
End small.
