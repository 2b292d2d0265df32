(** C39: the filter by the mean sequence length. Model: FilterModel. *)
From Coq Require Import QArith Permutation Sorted.
From Verif Require Import Base ListLemmas FilterModel FilterSpec FilterProofs.
Local Open Scope nat_scope. Local Open Scope list_scope.
Local Open Scope Z_scope.

(** The filter keeps the order and selects the shortest sequences: everything that is dropped is longer than everything that is kept. *)
Theorem C39_shortest_in_order : forall m seq_order len out, NoDup seq_order -> ~ (m == 0)%Q -> filter_epoch (Some m) seq_order len = Ok out ->
  subsequence out seq_order /\ out <> [] /\ forall i j, In i out -> In j seq_order -> ~ In j out -> shorter len i j.
Proof. intros m seq_order len out H1 H2 H3. destruct (filter_epoch_spec _ _ _ _ H1 H2 H3) as (A&B&C&_). auto. Qed.
Print Assumptions C39_shortest_in_order.

(** How many: the mean of the selection is exactly the requested one; or everything is kept and the mean is below; or the mean is above the requested maximum, but would be below without the longest one. *)
Theorem C39_mean : forall m seq_order len out, NoDup seq_order -> ~ (m == 0)%Q -> filter_epoch (Some m) seq_order len = Ok out ->
  (mean len out == m)%Q \/ (out = seq_order /\ (mean len out < m)%Q) \/
  ((m < mean len out)%Q /\ exists longest others, Permutation out (longest :: others) /\ (forall i, In i others -> shorter len i longest) /\ (others = [] \/ (mean len others < m)%Q)).
Proof. intros m seq_order len out H1 H2 H3. destruct (filter_epoch_spec _ _ _ _ H1 H2 H3) as (_&_&_&D). exact D. Qed.
Print Assumptions C39_mean.

(** Finding: the mean length is not bounded by [max_mean_len], although there is a selection with a smaller mean: one sequence too many is kept. *)
Definition ex_len (i : Z) : Z := nth (Z.to_nat i) [9; 1; 2] 0.
Theorem C39_mean_bounded_refuted : ~ (forall m seq_order len out, NoDup seq_order -> filter_epoch (Some m) seq_order len = Ok out ->
  (exists i, In i seq_order /\ (inject_Z (len i) <= m)%Q) -> (mean len out <= m)%Q).
Proof. intros H. specialize (H 2%Q [0; 1; 2] ex_len [0; 1; 2]). vm_compute in H. apply H; [repeat constructor; cbn; intuition discriminate|reflexivity|exists 1; split; [auto|discriminate]|reflexivity]. Qed.
Print Assumptions C39_mean_bounded_refuted.

(** Finding: sequences are dropped although the mean of all is exactly [max_mean_len]. *)
Theorem C39_no_needless_removal_refuted : ~ (forall m seq_order len out, NoDup seq_order -> filter_epoch (Some m) seq_order len = Ok out -> (mean len seq_order <= m)%Q -> out = seq_order).
Proof. intros H. specialize (H 5%Q [0; 1; 2; 3] (fun _ => 5) [0; 1; 2]). assert (E : [0; 1; 2] = [0; 1; 2; 3]); [|discriminate]. apply H; [repeat constructor; cbn; intuition discriminate|reflexivity|discriminate]. Qed.
Print Assumptions C39_no_needless_removal_refuted.

(** Finding: no sequences at all. *)
Theorem C39_empty_refuted : ~ (forall m len, exists out, filter_epoch m [] len = Ok out).
Proof. intros H. destruct (H (Some 1%Q) (fun _ => 0)) as [out Ho]. discriminate. Qed.
Print Assumptions C39_empty_refuted.

(** Over all configured epoch ranges, the result is always some of the sequences in the same order; *)
Theorem C39_keeps_order : forall opts epoch seq_order len out, epoch_filter opts epoch seq_order len = Ok out -> subsequence out seq_order.
Proof. intros opts [ep|] seq_order len out H; cbn [epoch_filter] in H; [apply bind_Ok in H; destruct H as (l&_&H); eapply filter_loop_sub; eauto|apply Ok_inj in H; subst; apply subsequence_refl]. Qed.
Print Assumptions C39_keeps_order.
(** an epoch in none of the ranges is not changed; *)
Theorem C39_other_epochs : forall opts ep seq_order len out, ep <= maxsize -> epoch_filter opts (Some ep) seq_order len = Ok out ->
  (forall x, In x opts -> ~ range_epochs (fst x) ep) -> out = seq_order.
Proof. exact epoch_filter_none. Qed.
Print Assumptions C39_other_epochs.

(** and an epoch in exactly one of the ranges is filtered with the maximum given for it. *)
Theorem C39_configured_epochs : forall opts1 r m opts2 ep seq_order len out, ep <= maxsize -> epoch_filter (opts1 ++ (r, m) :: opts2) (Some ep) seq_order len = Ok out ->
  range_epochs r ep -> (forall x, In x (opts1 ++ opts2) -> ~ range_epochs (fst x) ep) -> filter_epoch m seq_order len = Ok out.
Proof. exact epoch_filter_one. Qed.
Print Assumptions C39_configured_epochs.

(** For ranges given by numbers, all ranges which contain the epoch are applied, in the order of the ranges. *)
Theorem C39_in_order : forall opts ep seq_order len out, ep <= maxsize -> Forall (fun x => numeric (fst x)) opts ->
  epoch_filter opts (Some ep) seq_order len = Ok out ->
  exists ordered, Permutation ordered opts /\ StronglySorted (fun a b => range_le (fst a) (fst b)) ordered /\ filtered ep len ordered seq_order out.
Proof.
  intros opts ep seq_order len out Hm Hn H. cbn [epoch_filter] in H. destruct (sort_keys_sorted opts Hn) as (l&E&Hs). rewrite E in H. cbn [bind] in H.
  exists l. split; [exact (sort_keys_perm _ _ E)|]. split; [exact Hs|]. now apply filter_loop_filtered.
Qed.
Print Assumptions C39_in_order.

(** Valid ranges are accepted, and others are refused. *)
Theorem C39_accepts : forall opts ep seq_order len, Forall (fun x => valid_range (fst x)) opts ->
  Forall (fun x => forall s e, fst x = (Some s, e) -> s <= maxsize) opts -> seq_order <> [] -> NoDup seq_order ->
  exists out, epoch_filter opts (Some ep) seq_order len = Ok out.
Proof.
  intros opts ep seq_order len Hv Hm Hne Hnd. cbn [epoch_filter].
  assert (Hn : Forall (fun x : epochs_key * option Q => numeric (fst x)) opts) by (eapply Forall_impl; [|exact Hv]; intros x (s&e&E&_); exists s, e; exact E).
  destruct (sort_keys_sorted opts Hn) as (l&E&_). rewrite E. cbn [bind]. apply filter_loop_total; auto.
  eapply Permutation_Forall; [symmetry; exact (sort_keys_perm _ _ E)|]. apply Forall_forall. intros x Hx. rewrite Forall_forall in Hv, Hm. split; [now apply Hv|].
  specialize (Hm x Hx). destruct (fst x) as [[s|] e]; cbn [fst]; [|exact I]. eapply Hm. reflexivity.
Qed.
Print Assumptions C39_accepts.
Theorem C39_refuses : forall opts x ep seq_order len, Forall (fun x => numeric (fst x)) opts -> In x opts -> ~ valid_range (fst x) ->
  forall out, epoch_filter opts (Some ep) seq_order len <> Ok out.
Proof.
  intros opts x ep seq_order len Hn Hx Hv out H. cbn [epoch_filter] in H. apply bind_Ok in H. destruct H as (l&E&H). apply filter_loop_valid in H. rewrite Forall_forall in H, Hn.
  apply Hv, H; [|now apply Hn]. eapply Permutation_in; [symmetry; exact (sort_keys_perm _ _ E)|exact Hx].
Qed.
Print Assumptions C39_refuses.
(** Ranges which are open at the start are accepted as well, if all are. *)
Theorem C39_accepts_open_start : forall opts ep seq_order len,
  Forall (fun x => exists e, fst x = (None, Some e) /\ (e = -1 \/ 1 <= e)) opts -> seq_order <> [] -> NoDup seq_order ->
  exists out, epoch_filter opts (Some ep) seq_order len = Ok out.
Proof.
  intros opts ep seq_order len Hv Hne Hnd. cbn [epoch_filter]. destruct (sort_keys_open opts) as (l&E); [eapply Forall_impl; [|exact Hv]; intros x (e&Ee&_); eauto|].
  rewrite E. cbn [bind]. apply filter_loop_open; auto. eapply Permutation_Forall; [symmetry; exact (sort_keys_perm _ _ E)|exact Hv].
Qed.
Print Assumptions C39_accepts_open_start.
Example C39_open_start_ex : epoch_filter [((None, Some 9), Some (3 # 2)%Q); ((None, Some 5), Some 1%Q)] (Some 7) [0; 2; 1] ex_len = Ok [2; 1].
Proof. reflexivity. Qed.
Example C39_in_order_ex :
  epoch_filter [((Some 2, Some 9), Some 1%Q); ((Some 1, Some 5), Some (3 # 2)%Q)] (Some 3) [0; 2; 1] ex_len = Ok [1] /\
  (exists e, epoch_filter [((Some 2, Some 9), Some 1%Q); ((Some 4, Some 3), Some (3 # 2)%Q)] (Some 1) [0; 2; 1] ex_len = Err e) /\
  valid_range (Some 2, Some 9) /\ valid_range (Some 1, Some (-1)) /\ ~ valid_range (Some 4, Some 3).
Proof.
  split; [reflexivity|]. split; [eexists; reflexivity|]. split; [exists 2, 9; split; [reflexivity|lia]|]. split; [exists 1, (-1); split; [reflexivity|lia]|].
  intros (s&e&E&H). injection E as <- <-. lia.
Qed.

(** Finding: an open begin (None), which is supported, cannot be combined with another range. *)
Theorem C39_open_range_refuted : ~ (forall k k' m m' epoch seq_order len, seq_order <> [] ->
  exists out, epoch_filter [((None, Some k), m); ((Some k', None), m')] (Some epoch) seq_order len = Ok out).
Proof. intros H. destruct (H 5 6 (Some 1%Q) (Some 2%Q) 1 [0] (fun _ => 1)) as [out Ho]; [discriminate|]. discriminate. Qed.
Print Assumptions C39_open_range_refuted.

Example C39_ex : filter_epoch (Some 3%Q) [0; 1; 2] ex_len = Ok [0; 1; 2] /\ filter_epoch (Some 1%Q) [0; 1; 2] ex_len = Ok [1] /\ filter_epoch (Some (3 # 2)%Q) [0; 2; 1] ex_len = Ok [2; 1] /\
  epoch_filter [((Some 1, Some 5), Some 1%Q); ((Some 6, Some (-1)), Some (3 # 2)%Q)] (Some 7) [0; 2; 1] ex_len = Ok [2; 1].
Proof. vm_compute. repeat split; reflexivity. Qed.

Example C39_ranges_ex : range_epochs (Some 1, Some 5) 5 /\ ~ range_epochs (Some 1, Some 5) 6 /\ range_epochs (Some 6, Some (-1)) 7 /\ range_epochs (None, None) 7 /\
  epoch_filter [((Some 6, Some 9), Some 1%Q); ((Some 1, Some 5), Some 3%Q)] (Some 10) [0; 2; 1] ex_len = Ok [0; 2; 1] /\
  epoch_filter [((Some 6, Some 9), Some 1%Q); ((Some 1, Some 5), Some 3%Q)] (Some 9) [0; 2; 1] ex_len = Ok [1].
Proof. unfold range_epochs; cbn [fst snd]. repeat split; try lia; reflexivity. Qed.
