(** Properties of the native edit distance operations. *)
From Verif Require Import Base EditSpec EdOpModel EdOpSpec EdOpProofs.

(** The arguments of an operation on a batch of [n] padded sequences, the order of the iterations of every kernel
    call and the content of the uninitialised buffers *)
Definition call (n na nb : nat) (a : list Z) (a_len : list nat) (b : list Z) (b_len : list nat)
    (order : nat -> list nat) (buf1 buf2 buf3 : list Z) : Prop :=
  length a = n * na /\ length b = n * nb /\ length a_len = n /\ length b_len = n /\
  (forall d, d <= na + nb -> any_order (n * num_entries na nb d) (order d)) /\
  length buf1 = n * max_num_entries na nb /\ length buf2 = n * max_num_entries na nb /\ length buf3 = n * max_num_entries na nb.

(** The operation never accesses memory outside of its arrays and gives the edit distance of every pair of sequences,
    whatever is in the padding and in the buffers, for every order of the iterations.  A sequence which is longer
    than the array gets -1. *)
Theorem C121_edit_distance : forall n na nb a a_len b b_len order buf1 buf2 buf3,
  call n na nb a a_len b b_len order buf1 buf2 buf3 ->
  exists r, edit_distance_op na nb a a_len b b_len order buf1 buf2 buf3 = Some r /\ length r = n /\
    forall k la lb, nth_error a_len k = Some la -> nth_error b_len k = Some lb ->
      (la <= na -> lb <= nb -> exists d, nth_error r k = Some (Z.of_nat d) /\ is_edit_distance (seq_of na a k la) (seq_of nb b k lb) d) /\
      (na < la \/ nb < lb -> nth_error r k = Some (-1)%Z).
Proof.
  intros n na nb a a_len b b_len order buf1 buf2 buf3 (H1 & H2 & H3 & H4 & H5 & H6 & H7 & H8).
  destruct (edit_distance_op_ok na nb n a b a_len b_len order buf1 buf2 buf3) as (r & E & L & H); try assumption. exists r. split; [exact E|]. split; [exact L|].
  intros k la lb Ela Elb. rewrite (H k la lb Ela Elb). split.
  - intros Ha Hb. apply Nat.leb_le in Ha, Hb. rewrite Ha, Hb. eexists. split; [reflexivity|apply dst_is].
  - intros [Q|Q]; apply Nat.leb_gt in Q; rewrite Q; [reflexivity|]. rewrite Bool.andb_false_r. reflexivity.
Qed.
Print Assumptions C121_edit_distance.

(** The results of two calls are the same if the sequences are the same: padding, batching, schedule and buffers do not matter. *)
Theorem C121_only_sequences : forall n na nb a a_len b b_len order buf1 buf2 buf3 n' na' nb' a' a_len' b' b_len' order' buf1' buf2' buf3' r r',
  call n na nb a a_len b b_len order buf1 buf2 buf3 -> call n' na' nb' a' a_len' b' b_len' order' buf1' buf2' buf3' ->
  edit_distance_op na nb a a_len b b_len order buf1 buf2 buf3 = Some r ->
  edit_distance_op na' nb' a' a_len' b' b_len' order' buf1' buf2' buf3' = Some r' ->
  forall k k' la lb, nth_error a_len k = Some la -> nth_error b_len k = Some lb -> nth_error a_len' k' = Some la -> nth_error b_len' k' = Some lb ->
    la <= na -> la <= na' -> lb <= nb -> lb <= nb' ->
    seq_of na a k la = seq_of na' a' k' la -> seq_of nb b k lb = seq_of nb' b' k' lb -> nth_error r k = nth_error r' k'.
Proof.
  intros n na nb a a_len b b_len order buf1 buf2 buf3 n' na' nb' a' a_len' b' b_len' order' buf1' buf2' buf3' r r' C C' E E' k k' la lb A1 B1 A2 B2 Q1 Q2 Q3 Q4 S1 S2.
  apply C121_edit_distance in C, C'. destruct C as (r1 & E1 & _ & H1). destruct C' as (r2 & E2 & _ & H2). rewrite E in E1. rewrite E' in E2. injection E1 as <-. injection E2 as <-.
  destruct (H1 k la lb A1 B1) as [G1 _]. destruct (H2 k' la lb A2 B2) as [G2 _]. destruct (G1 Q1 Q3) as (d1 & -> & D1). destruct (G2 Q2 Q4) as (d2 & -> & D2).
  rewrite S1, S2 in D1. f_equal. f_equal. eapply is_ed_unique; eassumption.
Qed.
Print Assumptions C121_only_sequences.

(** The optimal completion distance: the least edit distance which any continuation of [a] can reach. *)
Theorem C122_optimal_completion : forall n na nb a a_len b b_len order buf1 buf2 buf3,
  call n na nb a a_len b b_len order buf1 buf2 buf3 -> Forall (fun l => l <= nb) b_len -> (Z.of_nat na < 2147483647)%Z ->
  exists r, optimal_completion_op na nb a a_len b b_len order buf1 buf2 buf3 = Some r /\ length r = n /\
    forall k la lb, nth_error a_len k = Some la -> nth_error b_len k = Some lb ->
      (la <= na -> exists d, nth_error r k = Some (Z.of_nat d) /\ is_optimal_completion (seq_of na a k la) (seq_of nb b k lb) d) /\
      (na < la -> nth_error r k = Some 2147483647%Z).
Proof.
  intros n na nb a a_len b b_len order buf1 buf2 buf3 (H1 & H2 & H3 & H4 & H5 & H6 & H7 & H8) Hb Hm.
  destruct (optimal_completion_op_ok na nb n a b a_len b_len order buf1 buf2 buf3) as (r & E & L & H); try assumption. exists r. split; [exact E|]. split; [exact L|].
  intros k la lb Ela Elb. destruct (H k la lb Ela Elb) as [G1 G2]. split; [exact G2|exact G1].
Qed.
Print Assumptions C122_optimal_completion.

(** The same for every successor label [x] of [a], although the operation only looks at the last row of the table. *)
Theorem C122_per_successor : forall n na nb a a_len b b_len successors order order_init order_expand buf1 buf2 buf3 row,
  call n na nb a a_len b b_len order buf1 buf2 buf3 -> Forall (fun l => l <= na) a_len -> Forall (fun l => l <= nb) b_len ->
  any_order (n * length successors) order_init -> any_order (n * length successors * nb) order_expand -> length row = n * (nb + 1) ->
  exists r, per_successor_op na nb a a_len b b_len successors order order_init order_expand buf1 buf2 buf3 row = Some r /\
    length r = n * length successors /\
    forall k la lb j x, nth_error a_len k = Some la -> nth_error b_len k = Some lb -> nth_error successors j = Some x ->
      exists d, nth_error r (k * length successors + j) = Some (Z.of_nat d) /\
        is_optimal_completion (seq_of na a k la ++ [x]) (seq_of nb b k lb) d.
Proof.
  intros n na nb a a_len b b_len successors order oi oe buf1 buf2 buf3 row (H1 & H2 & H3 & H4 & H5 & H6 & H7 & H8) Ha Hb Hoi Hoe Lr.
  apply per_successor_op_ok; assumption.
Qed.
Print Assumptions C122_per_successor.

(** One more symbol (or none, for an ended sequence): the row of the table of [a] becomes the row of [a ++ [x]]. *)
Theorem C123_next_row : forall nb n last_row a a_n a_ended b b_len (prefix : nat -> list Z),
  length b = n * nb -> length b_len = n -> length a = n -> length a_ended = n -> Forall (fun l => l <= nb) b_len ->
  (forall k lb, nth_error b_len k = Some lb ->
     (nth_error a_ended k = Some false -> nth_error a_n k = Some (length (prefix k))) /\
     has_row (prefix k) (seq_of nb b k lb) (seq_of (nb + 1) last_row k (nb + 1))) ->
  exists r, next_row_op nb last_row a a_n a_ended b b_len = Some r /\ length r = n * (nb + 1) /\
    forall k lb x ended, nth_error b_len k = Some lb -> nth_error a k = Some x -> nth_error a_ended k = Some ended ->
      is_row (if ended then prefix k else prefix k ++ [x]) (seq_of nb b k lb) (seq_of (nb + 1) r k (nb + 1)) nb.
Proof. exact next_row_op_ok. Qed.
Print Assumptions C123_next_row.

(** The reduction gives the (optimal completion) edit distance for one more label. *)
Theorem C123_next_reduce : forall nb n n_labels last_row a broadcast a_n a_ended b b_len oc blank (prefix : nat -> list Z),
  length b = n * nb -> length b_len = n -> length a_ended = n -> Forall (fun l => l <= nb) b_len ->
  length a = (if broadcast : bool then 1 else n) * n_labels ->
  (forall k lb, nth_error b_len k = Some lb ->
     (nth_error a_ended k = Some false -> nth_error a_n k = Some (length (prefix k))) /\
     has_row (prefix k) (seq_of nb b k lb) (seq_of (nb + 1) last_row k (nb + 1))) ->
  exists r, next_reduce_op nb n_labels last_row a broadcast a_n a_ended b b_len oc blank = Some r /\ length r = n * n_labels /\
    forall k lb ended label x, nth_error b_len k = Some lb -> nth_error a_ended k = Some ended -> label < n_labels ->
      nth_error a ((if broadcast then 0 else k) * n_labels + label) = Some x ->
      exists d, nth_error r (k * n_labels + label) = Some (Z.of_nat d) /\
        is_answer oc (if ended || (x =? blank)%Z then prefix k else prefix k ++ [x]) (seq_of nb b k lb) d.
Proof. exact next_reduce_op_ok. Qed.
Print Assumptions C123_next_reduce.

(** The whole loop agrees with the other operations, if there is at least one step, or no padding in [b], or for the optimal completion. *)
Theorem C123_loop : forall na nb n a a_len b b_len oc, length a = n * na -> length b = n * nb -> length a_len = n -> length b_len = n ->
  Forall (fun l => l <= na) a_len -> Forall (fun l => l <= nb) b_len -> 0 < na \/ Forall (fun l => l = nb) b_len \/ oc = true ->
  exists r, edit_distance_via_rows na nb a a_len b b_len oc = Some r /\ length r = n /\
    forall k la lb, nth_error a_len k = Some la -> nth_error b_len k = Some lb ->
      exists d, nth_error r k = Some (Z.of_nat d) /\ is_answer oc (seq_of na a k la) (seq_of nb b k lb) d.
Proof. exact via_rows_answer. Qed.
Print Assumptions C123_loop.

(** The layer with a blank label has the row of the labels without blanks and without those behind the end. *)
Theorem C123_blank : forall nb blank b lb xs, length b = nb -> lb <= nb ->
  exists row', table_layer nb blank b lb xs (initial_rows 1 nb) 0 = Some (row', length (labels blank xs)) /\
    has_row (labels blank xs) (firstn lb b) row' /\ (xs <> [] -> is_row (labels blank xs) (firstn lb b) row' nb).
Proof.
  intros nb blank b lb xs Lb Hlb. destruct (table_layer_ok nb blank b lb Lb Hlb xs (initial_rows 1 nb) []) as (row' & E & H1 & H2).
  - pose proof (initial_has_row 1 nb 0 (firstn lb b) ltac:(lia) ltac:(rewrite firstn_length; lia)) as G. unfold seq_of in G. cbn [Nat.mul skipn] in G.
    rewrite (firstn_all2 (initial_rows 1 nb)) in G; [exact G|]. unfold initial_rows. cbn [repeat concat]. rewrite app_nil_r, map_length, seq_length. lia.
  - unfold initial_rows. cbn [repeat concat]. rewrite app_nil_r, map_length, seq_length. reflexivity.
  - exists row'. auto.
Qed.
Print Assumptions C123_blank.

(** Without any step, the loop gives the length of the longest reference for all of them: [edit_distance] and
    [edit_distance_via_next_edit_distance_row] differ for empty hypotheses. *)
Theorem C123_empty_refuted : exists n na nb a a_len b b_len order buf1 buf2 buf3 r r',
  call n na nb a a_len b b_len order buf1 buf2 buf3 /\ Forall (fun l => l <= na) a_len /\ Forall (fun l => l <= nb) b_len /\
  edit_distance_op na nb a a_len b b_len order buf1 buf2 buf3 = Some r /\
  edit_distance_via_rows na nb a a_len b b_len false = Some r' /\ r <> r'.
Proof.
  exists 2, 0, 3, [], [0; 0], [7; 0; 0; 7; 8; 9]%Z, [1; 3], (fun _ => [1; 0]), [5; 5]%Z, [5; 5]%Z, [5; 5]%Z, [1; 3]%Z, [3; 3]%Z.
  split; [|split; [|split; [|split; [|split]]]]; [|repeat constructor|repeat constructor|reflexivity|reflexivity|discriminate].
  unfold call. repeat (split; [reflexivity|]). split; [|repeat split].
  intros d Hd i. replace (2 * num_entries 0 3 d) with 2; [cbn [In]; lia|]. destruct d as [|[|[|[|d]]]]; try reflexivity. lia.
Qed.
Print Assumptions C123_empty_refuted.

(** Cases of the unit tests tests/test_TFNativeOp.py 2396-2426, 2595-2640, 2708-2753 *)
Definition in_order (na nb n d : nat) : list nat := rev (seq 0 (n * num_entries na nb d)).
Example C121_example :
  edit_distance_op 4 3 [1;0;0;0; 1;2;0;0; 1;2;0;0; 1;2;3;4]%Z [1;2;2;4] [9;9;9; 1;9;9; 3;9;9; 1;3;4]%Z [0;1;1;3] (in_order 4 3 4)
    (repeat 77%Z 16) (repeat 78%Z 16) (repeat 79%Z 16) = Some [1;1;2;1]%Z.
Proof. vm_compute. reflexivity. Qed.
Example C121_example_call : call 4 4 3 [1;0;0;0; 1;2;0;0; 1;2;0;0; 1;2;3;4]%Z [1;2;2;4] [9;9;9; 1;9;9; 3;9;9; 1;3;4]%Z [0;1;1;3] (in_order 4 3 4)
    (repeat 77%Z 16) (repeat 78%Z 16) (repeat 79%Z 16).
Proof.
  unfold call. repeat (split; [reflexivity|]). split; [|repeat split]. intros d _ i. unfold in_order. rewrite <- in_rev, in_seq. lia.
Qed.
Example C122_example :
  optimal_completion_op 4 4 [1;0;0;0; 1;0;0;0; 1;0;0;0; 1;2;3;4]%Z [1;1;1;4] [9;9;9;9; 1;2;9;9; 3;1;9;9; 1;2;4;4]%Z [0;2;2;4] (in_order 4 4 4)
    (repeat 77%Z 20) (repeat 78%Z 20) (repeat 79%Z 20) = Some [1;0;1;1]%Z.
Proof. vm_compute. reflexivity. Qed.
Example C122_example_successors :
  per_successor_op 2 3 [1;0; 1;2]%Z [1;2] [1;2;9; 2;1;2]%Z [2;3] [1;2]%Z (in_order 2 3 2) (seq 0 4) (rev (seq 0 12))
    (repeat 77%Z 6) (repeat 78%Z 6) (repeat 79%Z 6) (repeat 80%Z 8) = Some [1;0;1;2]%Z.
Proof. vm_compute. reflexivity. Qed.
Example C123_example : edit_distance_via_rows 4 3 [1;0;0;0; 1;2;0;0; 1;2;0;0; 1;2;3;4]%Z [1;2;2;4] [9;9;9; 1;9;9; 3;9;9; 1;3;4]%Z [0;1;1;3] false = Some [1;1;2;1]%Z.
Proof. vm_compute. reflexivity. Qed.
Example C123_example_blank : table_layer 3 0 [1;2;9]%Z 2 [(0, false); (1, false); (0, false); (3, false); (5, true)]%Z (initial_rows 1 3) 0 = Some ([2;1;1;1]%Z, 2).
Proof. vm_compute. reflexivity. Qed.
