(** Separators from cuts (nested_dissection.cpp:726-738). *)
From stdpp Require Import relations.
From Verif Require Import Base GraphSpec UtilSpec FlowModel FlowSpec FlowArray NestedModel NestedSpec NestedArcProofs NestedCompProofs.
Ltac Zify.zify_post_hook ::= idtac.

Section Separator.
  Context (g : fragment) (Hok : fragment_ok g) (cut : list bool) (Hcut : length cut = fr_nodes g).
  Notation n := (fr_nodes g).
  Notation small := (count_occ Bool.bool_dec cut true <=? n / 2).

  Lemma derive_separator_spec : exists sep, derive_separator g cut = Some sep /\ length sep = n /\
    forall y, node_in sep y = true <-> node_in cut y <> small /\ exists x, arc g x y /\ node_in cut x = small.
  Proof.
    unfold derive_separator. cbv zeta.
    match goal with |- context [for_range 0 _ ?body ?init] =>
      destruct (for_range_inv (fun i sep => length sep = n /\ forall y, node_in sep y = true <->
        node_in cut y <> small /\ exists a x, a < i /\ fr_tail g !! a = Some x /\ fr_head g !! a = Some y /\ node_in cut x = small) body 0 (fr_arcs g) init) as (sep & -> & Hl & H) end.
    - lia.
    - rewrite replicate_length. split; [done|]. intros y. split.
      + intros H. unfold node_in in H. destruct (replicate n false !! y) eqn:E; [|done]. apply lookup_replicate in E as [-> _]. done.
      + intros (_ & a & _ & Ha & _). lia.
    - intros a sep Ha [Hl H]. destruct (frag_tail g Hok a ltac:(lia)) as (x & Ex & Hx). destruct (frag_head g Hok a ltac:(lia)) as (y & Ey & Hy).
      rewrite Ex, Ey, !bind_S, (lk_bool cut n x), (lk_bool cut n y), !bind_S by done.
      destruct (Bool.eqb (node_in cut x) small) eqn:E1; [apply eqb_prop in E1|apply eqb_false_iff in E1]; cbn [andb].
      1: destruct (Bool.eqb (node_in cut y) small) eqn:E2; [apply eqb_prop in E2|apply eqb_false_iff in E2]; cbn [negb].
      + eexists. split; [done|]. split; [done|]. intros z. rewrite H. split; intros (Hz & b & x' & Hb & Eb); (split; [done|]); exists b, x'.
        * split; [lia|done].
        * destruct Eb as (B1 & B2 & B3). destruct (decide (b = a)) as [->|]; [|split; [lia|done]]. exfalso. apply Hz. congruence.
      + rewrite (wr_Some sep) by lia. eexists. split; [done|]. split; [by rewrite insert_length|]. intros z. rewrite node_in_insert by lia. case_decide as Ez.
        * subst z. split; [|done]. intros _. split; [done|]. exists a, x. split; [lia|done].
        * rewrite H. split; intros (Hz & b & x' & Hb & Eb); (split; [done|]); exists b, x'; [split; [lia|done]|].
          destruct Eb as (B1 & B2 & B3). destruct (decide (b = a)) as [->|]; [|split; [lia|done]]. exfalso. apply Ez. congruence.
      + eexists. split; [done|]. split; [done|]. intros z. rewrite H. split; intros (Hz & b & x' & Hb & Eb); (split; [done|]); exists b, x'.
        * split; [lia|done].
        * destruct Eb as (B1 & B2 & B3). destruct (decide (b = a)) as [->|]; [|split; [lia|done]]. exfalso. apply E1. congruence.
    - exists sep. split; [done|]. split; [done|]. intros y. rewrite H. split; intros [Hy He]; (split; [done|]).
      + destruct He as (a & x & _ & E1 & E2 & E3). exists x. split; [by exists a|done].
      + destruct He as (x & (a & E1 & E2) & E3). exists a, x. split; [by apply lookup_lt_Some in E1|done].
  Qed.

  (** The separator of a proper cut of a connected graph is not empty. *)
  Lemma derive_separator_nonempty sep : connected g -> derive_separator g cut = Some sep -> (exists x y, x < n /\ y < n /\ node_in cut x <> node_in cut y) -> exists y, node_in sep y = true.
  Proof.
    intros Hc E (x & y & Hx & Hy & Hne). destruct derive_separator_spec as (sep' & E' & Hl & H). rewrite E in E'. injection E' as <-.
    assert (exists u v, u < n /\ v < n /\ node_in cut u = small /\ node_in cut v <> small) as (u & v & Hu & Hv & Eu & Ev).
    { destruct (Bool.bool_dec (node_in cut x) small) as [Ex|Ex].
      - exists x, y. split; [done|]. split; [done|]. split; [done|]. congruence.
      - exists y, x. split; [done|]. split; [done|]. split; [|done]. destruct (node_in cut x), (node_in cut y), small; done. }
    pose proof (Hc u v Hu Hv) as Hr. clear Hu Hv. induction Hr as [u|u w v Huw Hwv IH]; [done|].
    destruct (Bool.bool_dec (node_in cut w) small) as [Ew|Ew]; [by apply IH|]. exists w. apply H. split; [done|]. by exists u.
  Qed.
End Separator.
