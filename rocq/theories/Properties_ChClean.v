(** Theorems about the arc clean-up of CH construction. *)
From Verif Require Import Base UtilSpec WalkSpec ChCleanModel ChCleanSpec ChCleanProofs.
Ltac Zify.zify_post_hook ::= idtac.

(** * C32 *)
Theorem C32_clean : forall asserts n tail head w, arc_list n tail head w ->
  exists s, clean_arcs asserts n tail head w = Some s /\
    cleaned tail head w (a_tail s) (a_head s) (a_weight s) (a_id s).
Proof. exact clean_arcs_correct. Qed.
Print Assumptions C32_clean.

(** Shortest distances stay the same. *)
Theorem C32_distances : forall asserts n tail head w s u v d, arc_list n tail head w ->
  clean_arcs asserts n tail head w = Some s ->
  shortest_capped (dist_walk (arcs_of tail head w) u v) d <->
  shortest_capped (dist_walk (arcs_of (a_tail s) (a_head s) (a_weight s)) u v) d.
Proof.
  intros a n tail head w s u v d Hg E. destruct (clean_arcs_correct a n tail head w Hg) as (s' & E' & C).
  rewrite E in E'. injection E' as <-. destruct (cleaned_walk _ _ _ _ _ _ _ C u v) as [W1 W2].
  split; intros (H1 & H2 & H3); (split; [done|]; split; [|destruct H3 as [->|H3]; [by left|]; right]).
  - intros L HL. by apply H2, W1.
  - destruct (W2 d H3) as (L' & HL & HL'). assert (L' = d) as ->; [|done]. pose proof (H2 _ (W1 _ HL')). lia.
  - intros L HL. destruct (W2 L HL) as (L' & ? & HL'). pose proof (H2 _ HL'). lia.
  - by apply W1.
Qed.
Print Assumptions C32_distances.

Example C32_ex : arc_list 3 [2;0;1;0;0;2;0] [1;1;1;2;1;1;1] [5;7;1;4;3;5;3]%N /\
  clean_arcs true 3 [2;0;1;0;0;2;0] [1;1;1;2;1;1;1] [5;7;1;4;3;5;3]%N = Some (mkArcs4 [0;0;2] [1;2;1] [3;4;5]%N [4;3;0]).
Proof. split; [|done]. repeat split; [repeat constructor; lia..]. Qed.
Example C32_empty_ex : clean_arcs true 0 [] [] [] = Some (mkArcs4 [] [] [] []) /\
  clean_arcs true 2 [1;0] [1;0] [5;6]%N = Some (mkArcs4 [] [] [] []).
Proof. done. Qed.
