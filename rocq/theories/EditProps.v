(** Theorems about the edit distance of frontend/loss.py. *)
From Verif Require Import Base ListLemmas EditModel EditSpec EditProofs.
Local Open Scope Z_scope.

(** * C60: the edit distance *)
(** For every batch entry, the result is the least number of insertions, deletions and substitutions of one label that
    turn one sequence into the other, whatever the padding contains and whichever sequence is longer. *)
Theorem C60_edit_distance : forall rows k a la b lb, nth_error rows k = Some ((a, la), (b, lb)) -> (la <= length a)%nat -> (lb <= length b)%nat ->
  exists n, nth_error (edit_distance_batch rows) k = Some (Z.of_nat n) /\ is_edit_distance (firstn la a) (firstn lb b) n.
Proof.
  intros rows k a la b lb E Ha Hb. destruct (edit_distance_correct a b la lb Ha Hb) as (n & En & Hn). exists n. split; [|exact Hn].
  unfold edit_distance_batch. rewrite nth_error_map, E. cbn [option_map]. rewrite En. reflexivity.
Qed.
Print Assumptions C60_edit_distance.
(** The result depends only on the sequences. *)
Theorem C60_padding : forall a b la lb a' b', (la <= length a)%nat -> (lb <= length b)%nat -> (la <= length a')%nat -> (lb <= length b')%nat ->
  firstn la a = firstn la a' -> firstn lb b = firstn lb b' -> edit_distance a b la lb = edit_distance a' b' la lb.
Proof. intros a b la lb a' b' H1 H2 H3 H4 Ea Eb. rewrite !edit_distance_dist, Ea, Eb by assumption. reflexivity. Qed.
Print Assumptions C60_padding.
(** It is symmetric, zero only for equal sequences, and obeys the triangle inequality. *)
Theorem C60_metric : forall a b c la lb lc, (la <= length a)%nat -> (lb <= length b)%nat -> (lc <= length c)%nat ->
  edit_distance a b la lb = edit_distance b a lb la /\
  (edit_distance a b la lb = 0 <-> firstn la a = firstn lb b) /\
  edit_distance a c la lc <= edit_distance a b la lb + edit_distance b c lb lc.
Proof.
  intros a b c la lb lc Ha Hb Hc. rewrite !edit_distance_dist by assumption. split; [|split].
  - rewrite (dist_sym _ zeqb_spec). reflexivity.
  - split.
    + intros H. pose proof (proj1 (dist_is _ zeqb_spec (firstn la a) (firstn lb b))) as E. replace (dist Z.eqb (firstn la a) (firstn lb b)) with 0%nat in E by lia. inversion E. reflexivity.
    + intros ->. pose proof (dist_min _ zeqb_spec _ _ _ (al_refl _ (firstn lb b))). lia.
  - destruct (al_trans _ _ _ _ (dist_al _ zeqb_spec (firstn la a) (firstn lb b)) _ _ (dist_al _ zeqb_spec (firstn lb b) (firstn lc c))) as (k & Hk & K).
    apply (dist_min _ zeqb_spec) in K. lia.
Qed.
Print Assumptions C60_metric.

Example C60_batch : edit_distance_batch
  [(([1; 2; 3; 4], 4%nat), ([1; 3; 4], 3%nat)); (([5; 6; 9; 9], 2%nat), ([6; 5; 7], 3%nat)); (([0; 0; 0; 0], 0%nat), ([3; 3; 3], 2%nat)); (([0; 0; 0; 0], 0%nat), ([8; 8; 8], 0%nat))]
  = [1; 2; 2; 0].
Proof. vm_compute. reflexivity. Qed.
(** The first sequence is in the shorter row. "kitten" and "sitting". *)
Example C60_swapped : edit_distance [11; 9; 20; 20; 5; 14] [19; 9; 20; 20; 9; 14; 7; 0] 6 7 = 3.
Proof. vm_compute. reflexivity. Qed.
Example C60_definition : is_edit_distance [1; 2] [2] 1.
Proof.
  split; [econstructor; [apply (edit_delete [] 1 [2])|constructor]|]. intros [|m] H; [inversion H|lia].
Qed.
