(** C36: list helpers. Model: UniqModel. *)
From Verif Require Import Base ListLemmas UniqModel UniqSpec UniqProofs.
Local Open Scope Z_scope.

(** [uniq] collapses every run of equal values to one, for every integer type (differences wrap around); and there is only one such result. *)
Theorem C36_uniq : forall m l, 0 < m -> (forall x, In x l -> 0 <= x < m) ->
  collapses l (uniq m l) /\ forall out, collapses l out -> out = uniq m l.
Proof. intros m l H1 H2. pose proof (uniq_spec m l H1 H2) as H. split; [exact H|]. intros out Ho. eapply collapses_fun; eauto. Qed.
Print Assumptions C36_uniq.
Example C36_uniq_ex : uniq 256 [0; 1; 1; 1; 2; 2; 255; 255; 0] = [0; 1; 2; 255; 0] /\ collapses [0; 1; 1; 1; 2; 2] [0; 1; 2].
Proof. split; [reflexivity|]. exists [(0, 0%nat); (1, 2%nat); (2, 1%nat)]. cbn. intuition lia. Qed.

(** [uniq_generic] keeps the first occurrence of each value. *)
Theorem C36_uniq_generic : forall l, first_occurrences l (uniq_generic l).
Proof. intros l. apply (uniq_generic_loop_spec l [] [] []); [constructor|reflexivity]. Qed.
Print Assumptions C36_uniq_generic.
(** Finding: so it is not the generic version of [uniq] (and of the Unix tool) that it claims to be. *)
Theorem C36_uniq_generic_like_uniq_refuted : ~ (forall m l, 0 < m -> (forall x, In x l -> 0 <= x < m) -> uniq_generic l = uniq m l).
Proof. intros H. specialize (H 256 [1; 2; 1] ltac:(lia)). assert (E : [1; 2] = [1; 2; 1]); [|discriminate]. apply H. cbn. intuition lia. Qed.
Print Assumptions C36_uniq_generic_like_uniq_refuted.

(** The ranges are not empty, separated by gaps, and enumerate exactly the list. *)
Theorem C36_find_ranges : forall ls, strictly_ascending ls -> exists rs, find_ranges ls = Ok rs /\ gaps rs /\ concat (map range rs) = ls.
Proof. exact find_ranges_spec. Qed.
Print Assumptions C36_find_ranges.
(** Other lists are refused. *)
Theorem C36_find_ranges_refuses : forall ls, ~ strictly_ascending ls -> find_ranges ls = Err AssertionError.
Proof. exact find_ranges_fail. Qed.
Print Assumptions C36_find_ranges_refuses.
Example C36_find_ranges_ex : find_ranges [1; 2; 3; 7; 9; 10] = Ok [(1, 4); (7, 8); (9, 11)] /\ strictly_ascending [1; 2; 3; 7; 9; 10] /\ find_ranges [1; 1] = Err AssertionError.
Proof. cbn. intuition lia. Qed.

(** Slicing with padding: always the requested number of frames; those inside of the array are its frames, the others zero. *)
Theorem C36_slice_pad_zeros : forall (A : Type) (zero : A) x b e, b <= e -> 0 <= e ->
  exists y, slice_pad_zeros zero x b e = Ok y /\ Z.of_nat (length y) = e - b /\
    forall i, 0 <= i < e - b -> nth_error y (Z.to_nat i) = Some (if (0 <=? b + i) && (b + i <? Z.of_nat (length x)) then nth (Z.to_nat (b + i)) x zero else zero).
Proof. exact @slice_pad_zeros_spec. Qed.
Print Assumptions C36_slice_pad_zeros.
(** The expectations of tests/test_Util.py:94-97. *)
Example C36_slice_pad_zeros_ex : slice_pad_zeros 0 [1; 2; 3; 4] 1 3 = Ok [2; 3] /\ slice_pad_zeros 0 [1; 2; 3; 4] (-2) 2 = Ok [0; 0; 1; 2] /\
  slice_pad_zeros 0 [1; 2; 3; 4] (-2) 6 = Ok [0; 0; 1; 2; 3; 4; 0; 0] /\ slice_pad_zeros 0 [1; 2; 3; 4] 2 6 = Ok [3; 4; 0; 0].
Proof. repeat split; reflexivity. Qed.
(** Finding: a window completely before the array is refused, while one completely after it is padded. *)
Theorem C36_slice_before_refuted : ~ (forall (x : list Z) b e, b <= e -> exists y, slice_pad_zeros 0 x b e = Ok y /\ Z.of_nat (length y) = e - b).
Proof. intros H. destruct (H [1; 2] (-3) (-1) ltac:(lia)) as (y&Hy&_). discriminate. Qed.
Print Assumptions C36_slice_before_refuted.
