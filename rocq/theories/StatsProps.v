(** C27: running mean and variance are exact. *)
From Coq Require Import QArith Qfield.
From Verif Require Import Base StatsModel StatsSpec StatsProofs.
Local Open Scope list_scope. Local Open Scope Q_scope.

(** After collecting any groups of items (also empty ones), the mean and variance are those of all items. *)
Theorem C27_mean_and_variance : forall groups, concat groups <> [] ->
  let s := fold_left collect groups stats_init in
  exists m v, get_mean s = Ok m /\ get_var s = Ok v /\ is_mean (concat groups) m /\ is_variance (concat groups) v.
Proof.
  intros groups Hne s. exists (mean s), (var s).
  assert (Hn : (0 <? num_seqs s)%nat = true).
  { unfold s. rewrite fold_num. cbn [num_seqs stats_init]. apply Nat.ltb_lt. clear s. induction groups as [|[|x g] groups IH]; cbn in *; [congruence|now apply IH|lia]. }
  unfold get_mean, get_var. rewrite Hn. split; [reflexivity|]. split; [reflexivity|]. pose proof (all_inv groups) as [H1 H2 H3 H4]. fold s in H1, H2, H3, H4. change (collect_all groups) with s in *. specialize (H2 Hne). specialize (H4 Hne). pose proof (qlen_pos _ Hne) as Hq.
  unfold is_mean, is_variance. change count with qlen. change sum with qsum. split; [rewrite H2; field; exact Hq|]. exists (mean s). split; [unfold is_mean; change count with qlen; change sum with qsum; rewrite H2; field; exact Hq|]. rewrite centered, H4, H2. field. exact Hq.
Qed.
Print Assumptions C27_mean_and_variance.

(** The minimum and maximum, the number of items and the number of non-empty groups. *)
Theorem C27_min_max_counts : forall groups, concat groups <> [] ->
  let s := fold_left collect groups stats_init in
  (exists a, s_min s = Some a /\ is_min (concat groups) a) /\ (exists b, s_max s = Some b /\ is_max (concat groups) b) /\
  total_data_len s = length (concat groups) /\ num_seqs s = length (filter (fun g : list Q => negb (length g =? 0)%nat) groups).
Proof.
  intros groups Hne s. assert (H : minv s (concat groups)) by (apply (fold_minv groups stats_init []); now constructor). destruct H as [H1 H2]. split; [|split; [|split]].
  - destruct (s_min s) as [a|]; [exists a; auto|contradiction].
  - destruct (s_max s) as [b|]; [exists b; auto|contradiction].
  - apply (i_len _ _ (all_inv groups)).
  - unfold s. now rewrite fold_num.
Qed.
Print Assumptions C27_min_max_counts.

(** The result does not depend on how the items are grouped. *)
Theorem C27_grouping_irrelevant : forall groups groups', concat groups = concat groups' -> concat groups <> [] ->
  let s := fold_left collect groups stats_init in let s' := fold_left collect groups' stats_init in
  mean s == mean s' /\ var s == var s' /\ mean_sq s == mean_sq s'.
Proof.
  intros groups groups' E Hne s s'. pose proof (all_inv groups) as [_ H2 H3 H4]. pose proof (all_inv groups') as [_ G2 G3 G4]. change (collect_all groups) with s in *. change (collect_all groups') with s' in *. rewrite <- E in *. rewrite H2, H3, H4, G2, G3, G4 by exact Hne. repeat split; reflexivity.
Qed.
Print Assumptions C27_grouping_irrelevant.

Example C27_run : let s := fold_left collect [[1; 2]; []; [3]; [6; 8; 4]] stats_init in mean s == 4 /\ var s == 34 # 6 /\ s_min s = Some 1 /\ s_max s = Some 8 /\ num_seqs s = 3%nat.
Proof. cbv zeta. repeat split; vm_compute; reflexivity. Qed.

(** C27: without any data there is no mean and no variance. *)
Theorem C27_no_data : forall groups, concat groups = [] ->
  let s := fold_left collect groups stats_init in get_mean s = Err AssertionError /\ get_var s = Err AssertionError.
Proof.
  intros groups H. assert (E : fold_left collect groups stats_init = stats_init); [|cbv zeta; rewrite E; split; reflexivity].
  induction groups as [|[|x g] gs IH]; [reflexivity|exact (IH H)|discriminate H].
Qed.
Print Assumptions C27_no_data.
