From Verif Require Import Base ListLemmas PySort PySortProofs SeqOrderModel SeqOrderSpec.
From Coq Require Import Sorted Ascii String.
Local Open Scope nat_scope.
Local Notation length := List.length.
Local Notation concat := List.concat.

(** * Partitioning *)

Lemma cumsum_spec sizes :
  cumsum sizes = map (fun i => list_sum (firstn i sizes)) (seq 0 (S (length sizes))).
Proof.
  unfold cumsum. induction sizes as [|x l IH] using rev_ind; [reflexivity|].
  rewrite fold_left_app. cbn [fold_left]. rewrite IH.
  rewrite app_length. cbn [length]. rewrite Nat.add_1_r.
  rewrite (seq_S (S (length l))), map_app. cbn [map]. f_equal.
  - apply map_ext_in. intros i Hi. apply in_seq in Hi. f_equal.
    rewrite firstn_app. replace (i - length l) with 0 by lia. now rewrite app_nil_r.
  - f_equal. cbn [Nat.add]. rewrite firstn_all2 by (rewrite app_length; cbn; lia).
    rewrite list_sum_app. replace (list_sum [x]) with x by (cbn; lia). f_equal.
    rewrite seq_S, map_app. cbn [map]. rewrite last_last. now rewrite Nat.add_0_l, firstn_all.
Qed.

Lemma list_sum_repeat x n : list_sum (repeat x n) = n * x.
Proof. induction n; [reflexivity|]. change (x + list_sum (repeat x n) = S n * x). lia. Qed.

Lemma firstn_repeat {A} (x : A) n i : firstn i (repeat x n) = repeat x (min i n).
Proof. revert i; induction n as [|n IH]; intros [|i]; cbn; try reflexivity. now rewrite IH. Qed.

Lemma nth_error_repeat' {A} (x : A) n i : i < n -> nth_error (repeat x n) i = Some x.
Proof. revert i; induction n as [|n IH]; intros [|i] H; cbn; try lia; auto. apply IH. lia. Qed.

Section Sizes.
  Variables n np : nat.
  Hypothesis Hnp : 0 < np.
  Let q := n / np.
  Let r := n mod np.
  Let sizes := repeat (q + 1) r ++ repeat q (np - r).
  Definition part_bound (n np i : nat) : nat := i * (n / np) + min i (n mod np).

  Lemma r_lt : r < np. Proof. apply Nat.mod_upper_bound. lia. Qed.
  Lemma n_eq : n = np * q + r. Proof. apply Nat.div_mod_eq. Qed.

  Lemma sizes_length : length sizes = np.
  Proof. unfold sizes. rewrite app_length, !repeat_length. pose proof r_lt. lia. Qed.
  Lemma sizes_sum : list_sum sizes = n.
  Proof. unfold sizes. rewrite list_sum_app, !list_sum_repeat. pose proof r_lt. pose proof n_eq. nia. Qed.
  Lemma sizes_firstn i : i <= np -> list_sum (firstn i sizes) = part_bound n np i.
  Proof.
    intros Hi. unfold sizes, part_bound. fold q r. rewrite firstn_app, !firstn_repeat, list_sum_app, !list_sum_repeat.
    rewrite repeat_length. pose proof r_lt.
    destruct (Nat.le_gt_cases i r).
    - rewrite !(Nat.min_l i r) by lia. replace (i - r) with 0 by lia. cbn. nia.
    - rewrite !(Nat.min_r i r) by lia. rewrite Nat.min_l by lia. nia.
  Qed.
  Lemma sizes_nth i : i < np -> nth_error sizes i = Some (part_bound n np (S i) - part_bound n np i).
  Proof.
    intros Hi. unfold sizes, part_bound. fold q r. pose proof r_lt.
    destruct (Nat.lt_ge_cases i r) as [H1|H1].
    - rewrite nth_error_app1 by (rewrite repeat_length; lia). rewrite nth_error_repeat' by lia. f_equal. nia.
    - rewrite nth_error_app2 by (rewrite repeat_length; lia). rewrite repeat_length.
      rewrite nth_error_repeat' by lia. f_equal. nia.
  Qed.
  Lemma part_bound_mono i : part_bound n np i <= part_bound n np (S i).
  Proof. unfold part_bound. nia. Qed.
  Lemma part_bound_0 : part_bound n np 0 = 0. Proof. reflexivity. Qed.
  Lemma part_bound_end : part_bound n np np = n.
  Proof. unfold part_bound. pose proof r_lt. pose proof n_eq. unfold q, r in *. nia. Qed.
  Lemma part_bound_le_n i : i <= np -> part_bound n np i <= n.
  Proof. intros H. rewrite <- part_bound_end at 2. unfold part_bound. nia. Qed.
  Lemma part_size i : q <= part_bound n np (S i) - part_bound n np i <= q + 1.
  Proof. unfold part_bound. fold q r. nia. Qed.
End Sizes.

Lemma pyget_map_seq {B} (f : nat -> B) n i : i < n -> pyget (map f (seq 0 n)) i = Ok (f i).
Proof.
  intros H. unfold pyget. rewrite nth_error_map.
  rewrite (nth_error_nth' (seq 0 n) 0) by (rewrite seq_length; lia). cbn. rewrite seq_nth by lia. reflexivity.
Qed.

Lemma apply_partition_ok {A} (l : list A) P epoch S s :
  0 < P -> s < S ->
  let c := ((epoch_or_1 epoch - 1) mod P) * S + s in
  c < P * S /\
  apply_partition_epoch_and_sharding l P epoch S s
  = Ok (pyslice l (part_bound (length l) (P * S) c) (part_bound (length l) (P * S) (c + 1))).
Proof.
  intros HP HS c.
  assert (Hc : c < P * S).
  { unfold c. pose proof (Nat.mod_upper_bound (epoch_or_1 epoch - 1) P). nia. }
  split; [exact Hc|].
  assert (Hnp : 0 < P * S) by lia.
  unfold apply_partition_epoch_and_sharding. fold c.
  apply Nat.ltb_lt in HS as HS'. rewrite HS'. cbn [assert_ bind].
  destruct (Nat.eqb_spec P 0) as [?|_]; [lia|].
  rewrite sizes_sum by auto. rewrite sizes_length by auto. rewrite !Nat.eqb_refl. cbn [andb assert_ bind].
  rewrite cumsum_spec, map_length, seq_length, sizes_length, Nat.add_1_r, Nat.eqb_refl by auto. cbn [assert_ bind].
  rewrite !pyget_map_seq by lia. cbn [bind].
  rewrite !sizes_firstn by lia.
  unfold pyget at 1. rewrite sizes_nth by lia. cbn [bind].
  rewrite pyslice_length by (apply part_bound_le_n; lia). rewrite Nat.add_1_r, Nat.eqb_refl.
  reflexivity.
Qed.

Lemma full_epoch_index k P S : 0 < P ->
  map (fun es => ((epoch_or_1 (Some (fst es)) - 1) mod P) * S + snd es) (full_epoch_jobs k P S) = seq 0 (P * S).
Proof.
  intros HP. unfold full_epoch_jobs.
  transitivity (flat_map (fun i => map (fun s => i * S + s) (seq 0 S)) (seq 0 P)).
  - replace (seq (k * P + 1) P) with (map (fun i => k * P + 1 + i) (seq 0 P)).
    2:{ generalize (k * P + 1) as a. clear. intros a. revert a; induction P as [|P IH]; intros a; cbn; [reflexivity|].
        f_equal; [lia|]. rewrite <- seq_shift, map_map, <- (IH (Datatypes.S a)). apply map_ext. intros; lia. }
    assert (Hall : forall i, In i (seq 0 P) -> i < P) by (intros i Hi; apply in_seq in Hi; lia).
    revert Hall. generalize (seq 0 P) as L. induction L as [|i L IH]; intros Hall; cbn [map list_prod flat_map]; [reflexivity|].
    rewrite map_app, IH by (intros; apply Hall; now right). f_equal.
    rewrite map_map. apply map_ext. intros s. cbn [fst snd].
    assert (Hi : i < P) by (apply Hall; now left).
    replace (epoch_or_1 (Some (k * P + 1 + i)) - 1) with (i + k * P).
    + rewrite Nat.mod_add by lia. rewrite Nat.mod_small by lia. reflexivity.
    + unfold epoch_or_1. destruct (k * P + 1 + i) eqn:E; lia.
  - clear HP. induction P as [|P IH]; [reflexivity|].
    rewrite seq_S, flat_map_app, IH. cbn. rewrite app_nil_r.
    rewrite Nat.add_comm. rewrite seq_app. f_equal. cbn.
    generalize (P * S) as a. clear. intros a. induction S as [|S IH]; [reflexivity|].
    rewrite !seq_S, map_app, IH. reflexivity.
Qed.

Lemma partition_full_epoch {A} (l : list A) P S k :
  0 < P -> 0 < S ->
  exists pieces,
    map (fun es => apply_partition_epoch_and_sharding l P (Some (fst es)) S (snd es)) (full_epoch_jobs k P S)
    = map Ok pieces
    /\ concat pieces = l
    /\ forall p q, In p pieces -> In q pieces -> length p <= length q + 1.
Proof.
  intros HP HS.
  set (f := fun c => pyslice l (part_bound (length l) (P * S) c) (part_bound (length l) (P * S) (Datatypes.S c))).
  exists (map f (seq 0 (P * S))). split; [|split].
  - rewrite <- (full_epoch_index k P S HP), !map_map. apply map_ext_in. intros [e s] Hin.
    apply in_prod_iff in Hin as [He Hs]. apply in_seq in He, Hs. cbn [fst snd].
    destruct (apply_partition_ok l P (Some e) S s) as [_ ->]; [lia|lia|]. unfold f. now rewrite Nat.add_1_r.
  - unfold f. rewrite (concat_slices l (part_bound (length l) (P * S))).
    + rewrite part_bound_0, part_bound_end by lia. now apply pyslice_all.
    + intros. apply part_bound_mono; lia.
  - intros p q Hp Hq. apply in_map_iff in Hp as (i&<-&Hi), Hq as (j&<-&Hj).
    apply in_seq in Hi, Hj. unfold f.
    rewrite !pyslice_length by (apply part_bound_le_n; lia).
    assert (Hnp : 0 < P * S) by lia.
    pose proof (part_size (length l) (P * S) Hnp i). pose proof (part_size (length l) (P * S) Hnp j). lia.
Qed.

(** * Orderings *)

Lemma bin_bound_mono n bins i : 0 < bins -> i * n / bins <= S i * n / bins.
Proof. intros H. apply Nat.div_le_mono; lia. Qed.
Lemma bin_bound_0 n bins : 0 * n / bins = 0.
Proof. destruct bins; reflexivity. Qed.
Lemma bin_bound_end n bins : 0 < bins -> bins * n / bins = n.
Proof. intros H. rewrite Nat.mul_comm. apply Nat.div_mul. lia. Qed.

Definition bin (bins : nat) (l : list nat) (i : nat) : list nat :=
  pyslice l (i * length l / bins) ((i + 1) * length l / bins).

Lemma concat_bins bins l : 0 < bins -> concat (map (bin bins l) (seq 0 bins)) = l.
Proof.
  intros H. unfold bin.
  rewrite (map_ext _ (fun i => pyslice l (i * length l / bins) (S i * length l / bins)))
    by (intros; now rewrite Nat.add_1_r).
  rewrite (concat_slices l (fun i => i * length l / bins)) by (intros; apply bin_bound_mono; lia).
  rewrite bin_bound_0, bin_bound_end by lia. now apply pyslice_all.
Qed.

(** the last bin is cut with an open end in the sort_bin_shuffle branch, which is the same *)
Lemma skipn_last_bin bins l : 0 < bins -> skipn ((bins - 1) * length l / bins) l = bin bins l (bins - 1).
Proof.
  intros H. unfold bin. replace (bins - 1 + 1) with bins by lia. rewrite bin_bound_end by lia.
  unfold pyslice. rewrite firstn_all2; [reflexivity|]. now rewrite skipn_length.
Qed.

Lemma Permutation_concat_F2 {A} (l1 l2 : list (list A)) :
  Forall2 (@Permutation A) l1 l2 -> Permutation (concat l1) (concat l2).
Proof. induction 1; cbn; [constructor|]. now apply Permutation_app. Qed.

Lemma Permutation_concat_map {A B} (f : A -> list B) l1 l2 :
  Permutation l1 l2 -> Permutation (concat (map f l1)) (concat (map f l2)).
Proof. intros H. rewrite <- !flat_map_concat_map. now apply Permutation_flat_map. Qed.

Lemma sort_bin_parts_F2 R x2 bins l bin_ids g : rng_ok R -> 0 < bins ->
  Forall2 (@Permutation nat) (sort_bin_parts R x2 bins l bin_ids g) (map (bin bins l) bin_ids).
Proof.
  intros HR Hb. revert g; induction bin_ids as [|i ids IH]; intros g; cbn [sort_bin_parts map]; [constructor|].
  set (part := if i =? bins - 1 then _ else _).
  assert (Hpart : part = bin bins l i).
  { unfold part. destruct (Nat.eqb_spec i (bins - 1)) as [->|_]; [|reflexivity]. now apply skipn_last_bin. }
  rewrite Hpart. destruct x2.
  - destruct (rng_shuffle R (bin bins l i) g) as [part' g'] eqn:E. constructor; [|apply IH].
    replace part' with (fst (rng_shuffle R (bin bins l i) g)) by now rewrite E. apply HR.
  - constructor; [reflexivity|apply IH].
Qed.

Lemma sort_bin_perm R x2 bins l bin_ids g : rng_ok R -> 0 < bins -> Permutation bin_ids (seq 0 bins) ->
  Permutation (concat (sort_bin_parts R x2 bins l bin_ids g)) l.
Proof.
  intros HR Hb Hids. rewrite (Permutation_concat_F2 _ _ (sort_bin_parts_F2 R x2 bins l bin_ids g HR Hb)).
  rewrite (Permutation_concat_map _ _ _ Hids). now rewrite concat_bins.
Qed.

Lemma laplace_part_spec seq_lens bins seq_index i :
  laplace_part seq_lens bins seq_index i
  = stable_sort_by (fun j => if i mod 2 =? 1 then (- nth j seq_lens 0)%Z else nth j seq_lens 0%Z)
                   (bin bins seq_index i).
Proof.
  unfold laplace_part. fold (bin bins seq_index i). unfold take at 2.
  destruct (i mod 2 =? 1).
  - rewrite map_map. apply (take_argsort 0 (fun j => (- nth j seq_lens 0)%Z)).
  - apply (take_argsort 0 (fun j => nth j seq_lens 0%Z)).
Qed.

Lemma laplace_perm seq_lens bins seq_index : 0 < bins ->
  Permutation (concat (map (laplace_part seq_lens bins seq_index) (seq 0 bins))) seq_index.
Proof.
  intros Hb. rewrite <- (concat_bins bins seq_index) at 2 by auto.
  apply Permutation_concat_F2. generalize (seq 0 bins) as L. induction L as [|i L IH]; cbn [map]; constructor; auto.
  rewrite laplace_part_spec. apply stable_sort_perm.
Qed.

(** every method except default_every_n *)
Lemma base_order_perm R py_int cfg len ep n out :
  rng_ok R -> startswith (seq_ordering cfg) "default_every_n:" = false ->
  base_order R py_int cfg len ep n = Ok out -> Permutation out (seq 0 n).
Proof.
  intros HR Hne H. unfold base_order in H.
  destruct (String.eqb (seq_ordering cfg) "default"); [injection H as <-; reflexivity|].
  rewrite Hne in H.
  destruct (String.eqb (seq_ordering cfg) "reverse"); [injection H as <-; symmetry; apply Permutation_rev|].
  destruct (String.eqb (seq_ordering cfg) "sorted" || String.eqb (seq_ordering cfg) "sorted_reverse").
  { destruct len as [len|]; [|discriminate]. injection H as <-.
    rewrite argsort_perm, map_length, seq_length. reflexivity. }
  destruct (startswith (seq_ordering cfg) "random").
  { apply bind_Ok in H as (nth&_&[= <-]). destruct HR as [HR _]. rewrite HR. now rewrite Nat2Z.id. }
  destruct (startswith (seq_ordering cfg) "sort_bin_shuffle").
  { destruct len as [len|]; [|discriminate].
    apply bind_Ok in H as (nth&_&H).
    destruct (rng_permutation R (Z.of_nat n) _) as [idx g1] eqn:E1.
    apply bind_Ok in H as (bins&_&H).
    destruct (rng_permutation R bins g1) as [ids g2] eqn:E2.
    assert (Hidx : Permutation idx (seq 0 n)).
    { replace idx with (fst (rng_permutation R (Z.of_nat n)
        (rng_seed R (get_random_seed_for_epoch cfg ep nth)))) by now rewrite E1.
      destruct HR as [HR _]. rewrite HR. now rewrite Nat2Z.id. }
    assert (Hids : Permutation ids (seq 0 (Z.to_nat bins))).
    { replace ids with (fst (rng_permutation R bins g1)) by now rewrite E2. apply HR. }
    destruct ids as [|i0 ids]; [discriminate|]. apply Ok_inj in H. subst out.
    assert (0 < Z.to_nat bins) by (apply Permutation_length in Hids; rewrite seq_length in Hids; cbn in Hids; lia).
    rewrite sort_bin_perm by auto. now rewrite stable_sort_perm. }
  destruct (startswith (seq_ordering cfg) "laplace"); [|discriminate].
  destruct len as [len|]; [|discriminate].
  apply bind_Ok in H as (bins&_&H). apply bind_Ok in H as (nth&_&H).
  destruct (rng_permutation R (Z.of_nat n) _) as [idx g1] eqn:E1.
  destruct (Z.leb_spec bins 0); [discriminate|]. injection H as <-.
  rewrite laplace_perm by lia.
  replace idx with (fst (rng_permutation R (Z.of_nat n)
        (rng_seed R (get_random_seed_for_epoch cfg ep nth)))) by now rewrite E1.
  destruct HR as [HR _]. rewrite HR. now rewrite Nat2Z.id.
Qed.

(** * default_every_n *)

Lemma combine_seq_map {B} (g : nat -> B) a n :
  combine (seq a n) (map g (seq a n)) = map (fun j => (j, g j)) (seq a n).
Proof. revert a; induction n as [|n IH]; intros a; cbn; [reflexivity|]. now rewrite IH. Qed.

Lemma add_strided_map i num d g n :
  add_strided i num d (map g (seq 0 n))
  = map (fun j => if (i <=? j) && ((j - i) mod num =? 0) then g j + d else g j) (seq 0 n).
Proof. unfold add_strided. rewrite map_length, seq_length, combine_seq_map, map_map. reflexivity. Qed.

Lemma map_add_seq a b n : map (fun j => a + j) (seq b n) = seq (a + b) n.
Proof.
  revert b; induction n as [|n IH]; intros b; cbn; [reflexivity|].
  f_equal. rewrite IH. f_equal. lia.
Qed.

Lemma repeat_flat_map num m : 0 < num ->
  flat_map (fun x => repeat x num) (seq 0 m) = map (fun j => j / num) (seq 0 (m * num)).
Proof.
  intros Hn. induction m as [|m IH]; [reflexivity|].
  rewrite seq_S, flat_map_app, IH. cbn [flat_map Nat.add]. rewrite app_nil_r.
  replace (S m * num) with (m * num + num) by lia. rewrite seq_app, map_app. f_equal. cbn [Nat.add].
  rewrite <- (Nat.add_0_r (m * num)) at 1. rewrite <- (map_add_seq (m * num) 0 num), map_map.
  assert (H : forall j, In j (seq 0 num) -> (m * num + j) / num = m).
  { intros j Hj. apply in_seq in Hj. rewrite Nat.add_comm, Nat.div_add by lia.
    rewrite Nat.div_small by lia. reflexivity. }
  rewrite (map_ext_in _ (fun _ => m) _ H). clear. generalize 0. induction num as [|num IH]; intros a; cbn; [reflexivity|].
  now rewrite (IH (S a)) at 1.
Qed.

Lemma stride_cond i num j : 0 < num -> i < num ->
  (i <=? j) && ((j - i) mod num =? 0) = (j mod num =? i).
Proof.
  intros Hn Hi.
  destruct (Nat.eqb_spec (j mod num) i) as [E|E].
  - assert (i <= j) by (rewrite <- E; apply Nat.mod_le; lia).
    apply andb_true_intro; split; [apply Nat.leb_le; auto|]. apply Nat.eqb_eq.
    pose proof (Nat.div_mod_eq j num).
    replace (j - i) with (j / num * num) by lia. apply Nat.mod_mul. lia.
  - destruct (Nat.leb_spec i j) as [Hle|]; [|reflexivity].
    cbn. apply Nat.eqb_neq. intros E2. apply E.
    pose proof (Nat.div_mod_eq (j - i) num) as E3. rewrite E2, Nat.add_0_r in E3.
    replace j with (i + (j - i) / num * num) by lia.
    rewrite Nat.mod_add by lia. apply Nat.mod_small. lia.
Qed.

Lemma default_every_n_spec n num : 0 < num ->
  default_every_n n num
  = map (fun j => j / num + (j mod num) * (n / num)) (seq 0 (n / num * num)).
Proof.
  intros Hn. unfold default_every_n. rewrite repeat_flat_map by auto.
  set (m := n / num). set (L := m * num).
  assert (H : forall k, k < num ->
    fold_left (fun acc i => add_strided i num (i * m) acc) (seq 1 k) (map (fun j => j / num) (seq 0 L))
    = map (fun j => j / num + (if j mod num <=? k then (j mod num) * m else 0)) (seq 0 L)).
  { induction k as [|k IH]; intros Hk.
    - cbn [seq fold_left]. apply map_ext. intros j. destruct (Nat.leb_spec (j mod num) 0); [|lia].
      replace (j mod num) with 0 by lia. lia.
    - rewrite seq_S, fold_left_app, IH by lia. cbn [fold_left]. rewrite add_strided_map.
      apply map_ext. intros j. rewrite stride_cond by lia.
      destruct (Nat.eqb_spec (j mod num) (1 + k)), (Nat.leb_spec (j mod num) k), (Nat.leb_spec (j mod num) (S k)); try lia. }
  rewrite H by lia. apply map_ext. intros j.
  assert (j mod num < num) by (apply Nat.mod_upper_bound; lia).
  destruct (Nat.leb_spec (j mod num) (num - 1)); lia.
Qed.

Lemma default_every_n_perm n num : 0 < num ->
  Permutation (default_every_n n num) (seq 0 (num * (n / num))).
Proof.
  intros Hn. rewrite default_every_n_spec by auto. rewrite (Nat.mul_comm num).
  set (m := n / num). set (g := fun j => _).
  apply NoDup_Permutation_bis.
  - apply NoDup_map_inj; [|apply seq_NoDup].
    intros j1 j2 H1 H2 E. apply in_seq in H1, H2. unfold g in E.
    pose proof (Nat.div_mod_eq j1 num). pose proof (Nat.div_mod_eq j2 num).
    pose proof (Nat.mod_upper_bound j1 num). pose proof (Nat.mod_upper_bound j2 num).
    assert (j1 / num < m) by (apply Nat.div_lt_upper_bound; lia).
    assert (j2 / num < m) by (apply Nat.div_lt_upper_bound; lia).
    assert (j1 mod num = j2 mod num) by nia. assert (j1 / num = j2 / num) by nia. nia.
  - rewrite map_length, !seq_length. reflexivity.
  - intros x Hx. apply in_map_iff in Hx as (j&<-&Hj). apply in_seq in Hj. apply in_seq. unfold g.
    pose proof (Nat.mod_upper_bound j num).
    assert (j / num < m) by (apply Nat.div_lt_upper_bound; lia). nia.
Qed.

(** * Sorted orders *)

Lemma argsort_map_seq (key : nat -> Z) n : argsort (map key (seq 0 n)) = stable_sort_by key (seq 0 n).
Proof.
  unfold argsort. rewrite map_length, seq_length. apply stable_sort_ext.
  intros i Hi. apply in_seq in Hi. rewrite (nth_indep _ _ (key 0)) by (rewrite map_length, seq_length; lia).
  rewrite map_nth, seq_nth by lia. reflexivity.
Qed.

Lemma base_order_sorted R py_int cfg len ep n :
  seq_ordering cfg = "sorted"%string ->
  base_order R py_int cfg (Some len) ep n = Ok (stable_sort_by len (seq 0 n)).
Proof.
  intros E. unfold base_order. rewrite E. cbn -[argsort Z.mul]. rewrite argsort_map_seq. f_equal.
  apply stable_sort_ext. intros. lia.
Qed.
Lemma base_order_sorted_reverse R py_int cfg len ep n :
  seq_ordering cfg = "sorted_reverse"%string ->
  base_order R py_int cfg (Some len) ep n = Ok (stable_sort_by (fun i => (- len i)%Z) (seq 0 n)).
Proof.
  intros E. unfold base_order. rewrite E. cbn -[argsort Z.mul]. now rewrite argsort_map_seq.
Qed.

Lemma plain_order R py_int method seed off len e n :
  0 < n ->
  get_seq_order_for_epoch R py_int (plain_cfg method seed off) len (Some e) n
  = base_order R py_int (plain_cfg method seed off) len e n.
Proof.
  intros H. unfold get_seq_order_for_epoch. apply Nat.ltb_lt in H. rewrite H. cbn [assert_ bind].
  destruct (base_order _ _ _ _ _ _); reflexivity.
Qed.

(** * Laplace *)

Definition laplace_sorted (len : nat -> Z) (i : nat) (part : list nat) : Prop :=
  if Nat.even i then non_decreasing (map len part) else non_increasing (map len part).

Lemma StronglySorted_map {A B} (R : B -> B -> Prop) (f : A -> B) l :
  StronglySorted (fun x y => R (f x) (f y)) l -> StronglySorted R (map f l).
Proof.
  induction 1 as [|x l Hl IH Hx]; cbn; constructor; auto.
  rewrite Forall_map. exact Hx.
Qed.

Lemma odd_mod i : (i mod 2 =? 1) = negb (Nat.even i).
Proof.
  rewrite Nat.negb_even. destruct (Nat.odd i) eqn:E.
  - apply Nat.eqb_eq. apply Nat.odd_spec in E as [k ->].
    rewrite Nat.add_comm, Nat.mul_comm, Nat.mod_add by lia. reflexivity.
  - apply Nat.eqb_neq. rewrite <- Nat.negb_even in E. apply negb_false_iff, Nat.even_spec in E as [k ->].
    rewrite Nat.mul_comm, Nat.mod_mul by lia. lia.
Qed.

Lemma laplace_parts_spec len n bins idx :
  0 < bins -> Permutation idx (seq 0 n) ->
  let parts := map (laplace_part (map len (seq 0 n)) bins idx) (seq 0 bins) in
  length parts = bins
  /\ (forall i part, nth_error parts i = Some part -> laplace_sorted len i part)
  /\ (forall p q, In p parts -> In q parts -> length p <= length q + 1).
Proof.
  intros Hb Hidx parts. split; [|split].
  - unfold parts. now rewrite map_length, seq_length.
  - intros i part Hi. unfold parts in Hi. rewrite nth_error_map in Hi.
    assert (Hib : i < bins).
    { destruct (nth_error (seq 0 bins) i) eqn:E; [|discriminate].
      rewrite <- (seq_length bins 0). apply nth_error_Some. congruence. }
    rewrite (nth_error_nth' (seq 0 bins) 0), seq_nth in Hi by (rewrite ?seq_length; lia).
    cbn [option_map Nat.add] in Hi. injection Hi as <-. rewrite laplace_part_spec.
    assert (Hlen : forall j, In j (bin bins idx i) -> nth j (map len (seq 0 n)) 0%Z = len j).
    { intros j Hj.
      assert (In j (seq 0 n)).
      { rewrite <- Hidx. unfold bin, pyslice in Hj.
        rewrite <- (firstn_skipn (i * length idx / bins) idx). apply in_or_app. right.
        rewrite <- (firstn_skipn ((i + 1) * length idx / bins - i * length idx / bins)).
        apply in_or_app. now left. }
      apply in_seq in H. rewrite (nth_indep _ _ (len 0)) by (rewrite map_length, seq_length; lia).
      rewrite map_nth, seq_nth by lia. reflexivity. }
    unfold laplace_sorted. rewrite odd_mod. destruct (Nat.even i); cbn [negb].
    + rewrite (stable_sort_ext _ len) by exact Hlen. apply StronglySorted_map, stable_sort_sorted.
    + rewrite (stable_sort_ext _ (fun j => (- len j)%Z)) by (intros; now rewrite Hlen).
      apply StronglySorted_map.
      pose proof (stable_sort_sorted (fun j => (- len j)%Z) (bin bins idx i)) as H.
      induction H as [|x l Hl IH Hx]; constructor; auto.
      eapply Forall_impl; [|exact Hx]. cbn. lia.
  - intros p q Hp Hq. unfold parts in *. apply in_map_iff in Hp as (i&<-&Hi), Hq as (j&<-&Hj).
    apply in_seq in Hi, Hj. rewrite !laplace_part_spec.
    rewrite !(Permutation_length (stable_sort_perm _ _)). unfold bin.
    assert (Hle : forall i, i <= bins -> i * length idx / bins <= length idx).
    { intros i0 H0. apply Nat.div_le_upper_bound; nia. }
    rewrite !pyslice_length by (apply Hle; lia).
    set (L := length idx) in *. clearbody L. clear - Hb.
    pose proof (Nat.div_mod_eq (i * L) bins). pose proof (Nat.mod_upper_bound (i * L) bins).
    pose proof (Nat.div_mod_eq ((i + 1) * L) bins). pose proof (Nat.mod_upper_bound ((i + 1) * L) bins).
    pose proof (Nat.div_mod_eq (j * L) bins). pose proof (Nat.mod_upper_bound (j * L) bins).
    pose proof (Nat.div_mod_eq ((j + 1) * L) bins). pose proof (Nat.mod_upper_bound ((j + 1) * L) bins).
    set (a := i * L / bins) in *. set (b := (i + 1) * L / bins) in *.
    set (c := j * L / bins) in *. set (d := (j + 1) * L / bins) in *. nia.
Qed.

Lemma split_on_none c s : ~ In c (list_ascii_of_string s) -> split_on c s = [s].
Proof.
  induction s as [|a s IH]; cbn; intros H; [reflexivity|].
  destruct (Ascii.eqb_spec a c) as [->|_]; [exfalso; apply H; now left|].
  rewrite IH by tauto. reflexivity.
Qed.
Lemma split_on_app c s t : ~ In c (list_ascii_of_string s) -> split_on c (s ++ String c t) = s :: split_on c t.
Proof.
  induction s as [|a s IH]; cbn; intros H; [now rewrite Ascii.eqb_refl|].
  destruct (Ascii.eqb_spec a c) as [->|_]; [exfalso; apply H; now left|].
  rewrite IH by tauto. reflexivity.
Qed.
Lemma split_suffix py_int s rest : no_colon s -> nth_suffix py_int rest ->
  exists ts, split_on ":"%char (s ++ rest) = s :: ts /\ exists nth, parse_nth py_int (s :: ts) = Ok nth.
Proof.
  intros Hs [->|(t&nth&->&Ht&Hi)].
  - exists []. split; [|exists 1%Z; reflexivity].
    rewrite (split_on_none ":"%char (s ++ "")); [|].
    + f_equal. clear. induction s; cbn; congruence.
    + replace (s ++ "")%string with s; [exact Hs|]. clear. induction s; cbn; congruence.
  - exists [t]. split.
    + cbn [append]. rewrite split_on_app by exact Hs. now rewrite split_on_none.
    + exists nth. cbn. unfold to_int. now rewrite Hi.
Qed.

Lemma laplace_bins_parse py_int n method bins :
  laplace_bins py_int n method bins ->
  startswith method "laplace" = true /\ 0 < bins /\
  exists z nth, parse_bins py_int n (tl (split_on ":"%char method)) = Ok z /\ Z.to_nat z = bins
    /\ parse_nth py_int (tl (split_on ":"%char method)) = Ok nth.
Proof.
  destruct 1 as [|s b rest Hs Hd Hi Hb Hr|s k rest Hs Hi Hk Hr].
  - split; [reflexivity|]. split; [lia|]. exists 2%Z, 1%Z. repeat split; reflexivity.
  - split; [reflexivity|]. split; [lia|].
    destruct (split_suffix py_int s rest Hs Hr) as (ts&E&nth&En).
    exists b, nth. change (split_on ":"%char ("laplace:" ++ s ++ rest))
      with ("laplace"%string :: split_on ":"%char (s ++ rest)). rewrite E. cbn [tl].
    split; [|split; [reflexivity|exact En]]. cbn [parse_bins]. rewrite Hd. unfold to_int. now rewrite Hi.
  - split; [reflexivity|]. split; [lia|].
    destruct (split_suffix py_int (String "."%char s) rest) as (ts&E&nth&En).
    { unfold no_colon in *. cbn. intros [H|H]; [discriminate|auto]. }
    { exact Hr. }
    exists (Z.max (Z.of_nat n / k) 2), nth. change (split_on ":"%char ("laplace:." ++ s ++ rest))
      with ("laplace"%string :: split_on ":"%char (String "."%char s ++ rest)). rewrite E. cbn [tl].
    split; [|split; [|exact En]].
    + cbn [parse_bins]. replace (startswith (String "."%char s) ".") with true by (destruct s; reflexivity).
      cbn [str_tail]. unfold to_int. rewrite Hi. cbn [bind]. destruct (Z.eqb_spec k 0); [lia|reflexivity].
    + rewrite Z2Nat.inj_max. rewrite <- (Z2Nat.id k) at 1 by lia. rewrite <- Nat2Z.inj_div, Nat2Z.id. reflexivity.
Qed.

Lemma plain_laplace R py_int method bins seed off len e n :
  rng_ok R -> 0 < n -> laplace_bins py_int n method bins ->
  exists out parts,
  get_seq_order_for_epoch R py_int (plain_cfg method seed off) (Some len) (Some e) n = Ok out
  /\ out = concat parts /\ length parts = bins
  /\ (forall i part, nth_error parts i = Some part ->
        if Nat.even i then non_decreasing (map len part) else non_increasing (map len part))
  /\ (forall p q, In p parts -> In q parts -> length p <= length q + 1).
Proof.
  intros HR Hn Hb. rewrite plain_order by auto.
  apply laplace_bins_parse in Hb as (Hm&Hpos&z&nth&Ez&Hz&Enth).
  unfold base_order. set (cfg := plain_cfg method seed off).
  change (seq_ordering cfg) with method.
  assert (Hneq : forall s, startswith s "laplace" = false -> String.eqb method s = false).
  { intros s Hs. destruct (String.eqb_spec method s); [|reflexivity]. congruence. }
  assert (Hpre : forall s p a b c, p = String a c -> a <> b -> startswith s (String b EmptyString) = true -> startswith s p = false).
  { intros s p a b c -> Hab Hs. destruct s as [|x s]; [reflexivity|].
    unfold startswith, String.prefix in *. destruct (ascii_dec b x); [|discriminate].
    destruct (ascii_dec a x); [congruence|reflexivity]. }
  assert (Hl : startswith method "l" = true).
  { destruct method as [|x s]; [discriminate|].
    unfold startswith, String.prefix in *. destruct (ascii_dec "l"%char x); [|discriminate]. destruct s; reflexivity. }
  rewrite (Hneq "default"%string), (Hneq "reverse"%string), (Hneq "sorted"%string), (Hneq "sorted_reverse"%string)
    by reflexivity.
  rewrite (Hpre _ "default_every_n:"%string _ "l"%char _ eq_refl), (Hpre _ "random"%string _ "l"%char _ eq_refl),
    (Hpre _ "sort_bin_shuffle"%string _ "l"%char _ eq_refl), Hm by (discriminate || auto).
  cbn [orb]. rewrite Ez, Enth. cbn [bind].
  destruct (rng_permutation R (Z.of_nat n) _) as [idx g1] eqn:E1.
  destruct (Z.leb_spec z 0); [lia|].
  assert (Hidx : Permutation idx (seq 0 n)).
  { replace idx with (fst (rng_permutation R (Z.of_nat n)
        (rng_seed R (get_random_seed_for_epoch cfg e nth)))) by now rewrite E1.
    destruct HR as [HR _]. rewrite HR. now rewrite Nat2Z.id. }
  eexists. eexists. split; [reflexivity|]. split; [reflexivity|].
  rewrite Hz. exact (laplace_parts_spec len n bins idx Hpos Hidx).
Qed.

(** * Full epochs *)

Lemma seed_same_full_epoch cfg e1 e2 nth k :
  0 < partition_epoch cfg ->
  In e1 (seq (k * partition_epoch cfg + 1) (partition_epoch cfg)) ->
  In e2 (seq (k * partition_epoch cfg + 1) (partition_epoch cfg)) ->
  get_random_seed_for_epoch cfg e1 nth = get_random_seed_for_epoch cfg e2 nth.
Proof.
  intros HP H1 H2. apply in_seq in H1, H2. unfold get_random_seed_for_epoch.
  destruct (fixed_random_seed cfg); [reflexivity|].
  assert (E : forall e, k * partition_epoch cfg + 1 <= e < k * partition_epoch cfg + 1 + partition_epoch cfg ->
     (if 1 <? partition_epoch cfg then ((Z.of_nat (epoch_or_1 (Some e)) - 1) / Z.of_nat (partition_epoch cfg) + 1)%Z
      else Z.of_nat (epoch_or_1 (Some e))) = (Z.of_nat k + 1)%Z).
  { intros e He. replace (epoch_or_1 (Some e)) with e by (destruct e; cbn; lia).
    destruct (Nat.ltb_spec 1 (partition_epoch cfg)).
    - replace (Z.of_nat e - 1)%Z with (Z.of_nat (e - 1)) by lia. rewrite <- Nat2Z.inj_div.
      replace ((e - 1) / partition_epoch cfg) with k; [lia|].
      apply Nat.div_unique with (r := e - 1 - k * partition_epoch cfg); lia.
    - replace (partition_epoch cfg) with 1 in * by lia. lia. }
  rewrite !E by lia. reflexivity.
Qed.

Lemma base_order_ext R py_int cfg cfg' len e e' n :
  seq_ordering cfg = seq_ordering cfg' ->
  (forall nth, get_random_seed_for_epoch cfg e nth = get_random_seed_for_epoch cfg' e' nth) ->
  base_order R py_int cfg len e n = base_order R py_int cfg' len e' n.
Proof.
  intros Ho Hs. unfold base_order. rewrite Ho.
  destruct (String.eqb _ "default"); [reflexivity|].
  destruct (startswith _ "default_every_n:"); [reflexivity|].
  destruct (String.eqb _ "reverse"); [reflexivity|].
  destruct (String.eqb _ "sorted" || _); [reflexivity|].
  destruct (startswith _ "random").
  { destruct (match split_on _ _ with [] => _ | _ => _ end); cbn [bind]; [|reflexivity]. now rewrite Hs. }
  destruct (startswith _ "sort_bin_shuffle").
  { destruct len; [|reflexivity]. destruct (parse_nth _ _); cbn [bind]; [|reflexivity]. now rewrite Hs. }
  destruct (startswith _ "laplace"); [|reflexivity].
  destruct len; [|reflexivity]. destruct (parse_bins _ _ _); cbn [bind]; [|reflexivity].
  destruct (parse_nth _ _); cbn [bind]; [|reflexivity]. now rewrite Hs.
Qed.

Lemma unique_by_tag_ext cfg cfg' used l : all_tags cfg = all_tags cfg' ->
  unique_by_tag cfg used l = unique_by_tag cfg' used l.
Proof.
  intros H. revert used; induction l as [|i l IH]; intros used; cbn; [reflexivity|]. rewrite H.
  destruct (pyget _ _); cbn [bind]; [|reflexivity]. now rewrite IH.
Qed.

(** order of the full epoch, before cutting out the piece for the sub-epoch and shard *)
Definition full_order R py_int cfg len e n : res (list nat) :=
  let* _ := assert_ (0 <? n) in
  let* l := base_order R py_int cfg len e n in
  if unique_seq_tags cfg then unique_by_tag cfg [] l else Ok l.

Lemma order_no_repeat_filter R py_int cfg len e n :
  0 < partition_epoch cfg -> shard_index cfg < num_shards cfg -> repeat_epoch cfg <= 1 -> tags_filter cfg = None ->
  get_seq_order_for_epoch R py_int cfg len (Some e) n
  = let* l := full_order R py_int cfg len e n in
    apply_partition_epoch_and_sharding l (partition_epoch cfg) (Some e) (num_shards cfg) (shard_index cfg).
Proof.
  intros HP HS Hr Hf. unfold get_seq_order_for_epoch, full_order. rewrite Hf.
  destruct (assert_ _); cbn [bind]; [|reflexivity].
  destruct (base_order _ _ _ _ _ _) as [l|]; cbn [bind]; [|reflexivity].
  destruct (if unique_seq_tags cfg then _ else _) as [u|]; cbn [bind]; [|reflexivity].
  destruct (Nat.ltb_spec 1 (repeat_epoch cfg)) as [|_]; [lia|].
  destruct (apply_partition_ok u (partition_epoch cfg) (Some e) (num_shards cfg) (shard_index cfg) HP HS) as [Hc Hap].
  destruct ((1 <? partition_epoch cfg) || (1 <? num_shards cfg)) eqn:E.
  - rewrite Hap. reflexivity.
  - apply orb_false_iff in E as [E1 E2]. apply Nat.ltb_ge in E1, E2.
    cbn [bind]. rewrite Hap. f_equal.
    replace (partition_epoch cfg) with 1 in * by lia. replace (num_shards cfg) with 1 in * by lia.
    replace (shard_index cfg) with 0 in * by lia.
    rewrite Nat.mod_1_r. cbn [Nat.mul Nat.add]. rewrite part_bound_0, part_bound_end by lia.
    symmetry. now apply pyslice_all.
Qed.

Lemma full_order_same R py_int cfg len n k e1 s1 e2 s2 :
  0 < partition_epoch cfg ->
  In (e1, s1) (full_epoch_jobs k (partition_epoch cfg) (num_shards cfg)) ->
  In (e2, s2) (full_epoch_jobs k (partition_epoch cfg) (num_shards cfg)) ->
  full_order R py_int (with_shard cfg s1) len e1 n = full_order R py_int (with_shard cfg s2) len e2 n.
Proof.
  intros HP H1 H2. apply in_prod_iff in H1 as [H1 _], H2 as [H2 _].
  unfold full_order. cbn [unique_seq_tags with_shard].
  destruct (assert_ _); cbn [bind]; [|reflexivity].
  rewrite (base_order_ext R py_int (with_shard cfg s1) (with_shard cfg s2) len e1 e2 n eq_refl).
  - destruct (base_order _ _ _ _ _ _); cbn [bind]; [|reflexivity].
    destruct (unique_seq_tags cfg); [|reflexivity]. now apply unique_by_tag_ext.
  - intros nth. apply (seed_same_full_epoch cfg e1 e2 nth k HP H1 H2).
Qed.

Lemma full_epoch_pieces R py_int cfg len n k e0 s0 out0 :
  0 < partition_epoch cfg -> repeat_epoch cfg <= 1 -> tags_filter cfg = None ->
  In (e0, s0) (full_epoch_jobs k (partition_epoch cfg) (num_shards cfg)) ->
  get_seq_order_for_epoch R py_int (with_shard cfg s0) len (Some e0) n = Ok out0 ->
  exists l pieces,
    full_order R py_int (with_shard cfg s0) len e0 n = Ok l
    /\ map (fun es => get_seq_order_for_epoch R py_int (with_shard cfg (snd es)) len (Some (fst es)) n)
        (full_epoch_jobs k (partition_epoch cfg) (num_shards cfg)) = map Ok pieces
    /\ concat pieces = l
    /\ (forall p q, In p pieces -> In q pieces -> length p <= length q + 1).
Proof.
  intros HP Hr Hf Hin Hok.
  assert (Hs : forall e s, In (e, s) (full_epoch_jobs k (partition_epoch cfg) (num_shards cfg)) -> s < num_shards cfg).
  { intros e s H. apply in_prod_iff in H as [_ H]. apply in_seq in H. lia. }
  rewrite order_no_repeat_filter in Hok by first [exact HP|exact Hr|exact Hf|eapply Hs; eauto].
  apply bind_Ok in Hok as (l&Hl&_).
  destruct (partition_full_epoch l (partition_epoch cfg) (num_shards cfg) k HP) as (pieces&Hp&Hc&Hsz).
  { specialize (Hs _ _ Hin). lia. }
  exists l, pieces. split; [exact Hl|split; [|split; [exact Hc|exact Hsz]]].
  rewrite <- Hp. apply map_ext_in. intros [e s] He. cbn [fst snd].
  rewrite order_no_repeat_filter by first [exact HP|exact Hr|exact Hf|eapply Hs; eauto].
  rewrite (full_order_same R py_int cfg len n k e s e0 s0) by auto. rewrite Hl. reflexivity.
Qed.

Lemma full_epoch_perm R py_int cfg len n k e0 s0 out0 :
  rng_ok R -> startswith (seq_ordering cfg) "default_every_n:" = false ->
  0 < partition_epoch cfg -> repeat_epoch cfg <= 1 -> tags_filter cfg = None -> unique_seq_tags cfg = false ->
  In (e0, s0) (full_epoch_jobs k (partition_epoch cfg) (num_shards cfg)) ->
  get_seq_order_for_epoch R py_int (with_shard cfg s0) len (Some e0) n = Ok out0 ->
  exists pieces,
    map (fun es => get_seq_order_for_epoch R py_int (with_shard cfg (snd es)) len (Some (fst es)) n)
        (full_epoch_jobs k (partition_epoch cfg) (num_shards cfg)) = map Ok pieces
    /\ Permutation (concat pieces) (seq 0 n)
    /\ (forall p q, In p pieces -> In q pieces -> length p <= length q + 1).
Proof.
  intros HR Hm HP Hr Hf Hu Hin Hok.
  destruct (full_epoch_pieces R py_int cfg len n k e0 s0 out0) as (l&pieces&Hl&Hp&Hc&Hsz); auto.
  exists pieces. split; [auto|split; [|auto]].
  unfold full_order in Hl. cbn [with_shard unique_seq_tags] in Hl. rewrite Hu in Hl.
  apply bind_Ok in Hl as (u&_&Hl). apply bind_Ok in Hl as (b&Hb&Hl). apply Ok_inj in Hl. subst b.
  rewrite Hc. eapply base_order_perm; [exact HR| |exact Hb]. exact Hm.
Qed.

(** ** Unique tags *)

Lemma mem_str_In s l : mem_str s l = true <-> In s l.
Proof.
  unfold mem_str. rewrite existsb_exists. split.
  - intros (x&Hx&E). apply String.eqb_eq in E. now subst.
  - intros H. exists s. split; [auto|apply String.eqb_refl].
Qed.

Lemma pyget_nth {A} (d : A) l i x : pyget l i = Ok x -> x = nth i l d.
Proof. unfold pyget. destruct (nth_error l i) eqn:E; [|discriminate]. intros [= <-]. symmetry. now apply nth_error_nth. Qed.

Lemma unique_by_tag_spec cfg used inp out :
  let tag := fun i => nth i (all_tags cfg) ""%string in
  unique_by_tag cfg used inp = Ok out ->
  subseq out inp /\ NoDup (map tag out)
  /\ forall i, In i out <-> exists l1 l2, inp = l1 ++ i :: l2 /\ ~ In (tag i) (map tag l1) /\ ~ In (tag i) used.
Proof.
  intros tag. revert used out; induction inp as [|i inp IH]; intros used out H; cbn in H.
  - injection H as <-. split; [constructor|split; [constructor|]]. intros i. split; [intros []|].
    intros (l1&l2&E&_). destruct l1; discriminate.
  - apply bind_Ok in H as (t&Ht&H). apply bind_Ok in H as (o&Ho&H). apply Ok_inj in H. subst out.
    apply (pyget_nth ""%string) in Ht. change (t = tag i) in Ht. subst t.
    destruct (IH _ _ Ho) as (Hsub&Hnd&Hiff).
    assert (Hiff' : forall j, In j o <-> exists l1 l2, i :: inp = (i :: l1) ++ j :: l2
                      /\ ~ In (tag j) (map tag (i :: l1)) /\ ~ In (tag j) used).
    { intros j. rewrite Hiff. split.
      - intros (l1&l2&->&H1&H2). exists l1, l2. cbn in *. split; [reflexivity|]. split; [|tauto].
        intros [H|H]; [apply H2; now left|auto].
      - intros (l1&l2&[= ->]&H1&H2). exists l1, l2. cbn in *. split; [reflexivity|]. split; [tauto|].
        intros [H|H]; auto. }
    destruct (mem_str (tag i) used) eqn:E.
    + apply mem_str_In in E. split; [now constructor|split; [exact Hnd|]].
      intros j. rewrite Hiff'. split.
      * intros (l1&l2&H). exists (i :: l1), l2. exact H.
      * intros ([|i' l1]&l2&H1&H2&H3); cbn in H1.
        -- injection H1 as -> _. contradiction.
        -- injection H1 as <- H1. exists l1, l2. cbn. rewrite H1. auto.
    + assert (Hni : ~ In (tag i) used) by (rewrite <- mem_str_In; congruence).
      split; [now constructor|split].
      * cbn. constructor; [|exact Hnd]. intros Hin. apply in_map_iff in Hin as (j&Ej&Hj).
        apply Hiff in Hj as (l1&l2&_&_&Hj). apply Hj. left. auto.
      * intros j. cbn [In]. rewrite Hiff'. split.
        -- intros [<-|(l1&l2&H)].
           ++ exists [], inp. cbn. auto.
           ++ exists (i :: l1), l2. exact H.
        -- intros ([|i' l1]&l2&H1&H2&H3); cbn in H1.
           ++ injection H1 as -> _. now left.
           ++ injection H1 as <- H1. right. exists l1, l2. cbn. rewrite H1. auto.
Qed.

Lemma full_epoch_unique R py_int cfg len n k e0 s0 out0 :
  rng_ok R -> startswith (seq_ordering cfg) "default_every_n:" = false ->
  0 < partition_epoch cfg -> repeat_epoch cfg <= 1 -> tags_filter cfg = None -> unique_seq_tags cfg = true ->
  In (e0, s0) (full_epoch_jobs k (partition_epoch cfg) (num_shards cfg)) ->
  get_seq_order_for_epoch R py_int (with_shard cfg s0) len (Some e0) n = Ok out0 ->
  exists base pieces,
    Permutation base (seq 0 n)
    /\ map (fun es => get_seq_order_for_epoch R py_int (with_shard cfg (snd es)) len (Some (fst es)) n)
        (full_epoch_jobs k (partition_epoch cfg) (num_shards cfg)) = map Ok pieces
    /\ first_occurrences (fun i => nth i (all_tags cfg) ""%string) base (concat pieces).
Proof.
  intros HR Hm HP Hr Hf Hu Hin Hok.
  destruct (full_epoch_pieces R py_int cfg len n k e0 s0 out0) as (l&pieces&Hl&Hp&Hc&Hsz); auto.
  unfold full_order in Hl. cbn [with_shard unique_seq_tags] in Hl. rewrite Hu in Hl.
  apply bind_Ok in Hl as (u&_&Hl). apply bind_Ok in Hl as (b&Hb&Hl).
  exists b, pieces. split; [|split; [exact Hp|]].
  - eapply base_order_perm; [exact HR| |exact Hb]. exact Hm.
  - rewrite Hc. destruct (unique_by_tag_spec _ _ _ _ Hl) as (H1&H2&H3).
    split; [exact H1|split; [exact H2|]]. intros i. rewrite H3. cbn. split.
    + intros (l1&l2&?&?&_). eauto.
    + intros (l1&l2&?&?). exists l1, l2. auto.
Qed.

(** ** Repetition and filter *)

Lemma filter_by_tag_spec cfg wanted l out :
  filter_by_tag cfg wanted l = Ok out ->
  out = filter (fun i => mem_str (nth i (all_tags cfg) ""%string) wanted) l.
Proof.
  revert out; induction l as [|i l IH]; intros out H; cbn in *; [congruence|].
  apply bind_Ok in H as (t&Ht&H). apply bind_Ok in H as (o&Ho&H). apply Ok_inj in H. subst out.
  apply (pyget_nth ""%string) in Ht. subst t. rewrite (IH _ Ho). reflexivity.
Qed.

Lemma repeat_and_filter R py_int cfg len e n out :
  0 < repeat_epoch cfg ->
  get_seq_order_for_epoch R py_int cfg len (Some e) n = Ok out ->
  exists piece,
    get_seq_order_for_epoch R py_int (without_repeat_and_filter cfg) len (Some e) n = Ok piece
    /\ out = filter (fun i => match tags_filter cfg with
                              | None => true
                              | Some wanted => existsb (String.eqb (nth i (all_tags cfg) ""%string)) wanted
                              end) (concat (repeat piece (repeat_epoch cfg))).
Proof.
  intros Hr H. unfold get_seq_order_for_epoch in *.
  apply bind_Ok in H as (u&Hu&H). rewrite Hu. cbn [bind].
  apply bind_Ok in H as (b&Hb&H).
  rewrite (base_order_ext R py_int (without_repeat_and_filter cfg) cfg len e e n) by reflexivity.
  rewrite Hb. cbn [bind].
  apply bind_Ok in H as (q&Hq&H). cbn [without_repeat_and_filter unique_seq_tags].
  assert (Hq' : (if unique_seq_tags cfg then unique_by_tag (without_repeat_and_filter cfg) [] b else Ok b) = Ok q).
  { rewrite <- Hq. destruct (unique_seq_tags cfg); [|reflexivity]. now apply unique_by_tag_ext. }
  rewrite Hq'. cbn [bind without_repeat_and_filter partition_epoch num_shards shard_index repeat_epoch tags_filter].
  apply bind_Ok in H as (p&Hp&H). rewrite Hp. cbn [bind]. exists p. split; [reflexivity|].
  assert (Hrep : (if 1 <? repeat_epoch cfg then concat (repeat p (repeat_epoch cfg)) else p)
                 = concat (repeat p (repeat_epoch cfg))).
  { destruct (Nat.ltb_spec 1 (repeat_epoch cfg)); [reflexivity|].
    replace (repeat_epoch cfg) with 1 by lia. cbn. now rewrite app_nil_r. }
  rewrite Hrep in H. destruct (tags_filter cfg) as [wanted|].
  - apply bind_Ok in H as (?&_&H). apply bind_Ok in H as (?&_&H). apply bind_Ok in H as (o&Ho&H).
    apply bind_Ok in H as (?&_&H). apply Ok_inj in H. subst out. now apply filter_by_tag_spec in Ho.
  - apply Ok_inj in H. subst out. symmetry. clear.
    generalize (concat (repeat p (repeat_epoch cfg))) as l. induction l as [|x l IH]; cbn; congruence.
Qed.

(** * The methods with their default parameters never fail *)
Lemma plain_order_total R py_int seed off len e n method :
  0 < n -> rng_ok R ->
  In method ["default"; "reverse"; "sorted"; "sorted_reverse"; "random"; "laplace"; "sort_bin_shuffle";
             "sort_bin_shuffle_x2"]%string ->
  exists out, get_seq_order_for_epoch R py_int (plain_cfg method seed off) (Some len) (Some e) n = Ok out.
Proof.
  intros Hn HR Hin. rewrite plain_order by auto.
  cbn [In] in Hin. repeat (destruct Hin as [<-|Hin]); try contradiction;
    unfold base_order; cbn -[argsort Z.mul sort_bin_parts seq]; try (eexists; reflexivity).
  - destruct (rng_permutation _ _ _) as [idx g]. eexists; reflexivity.
  - destruct (rng_permutation _ _ _) as [idx g]. destruct (rng_permutation R 2 g) as [ids g2] eqn:E.
    pose proof (proj1 HR 2%Z g) as H. rewrite E in H. destruct ids; [|eexists; reflexivity].
    apply Permutation_length in H. discriminate.
  - destruct (rng_permutation _ _ _) as [idx g]. destruct (rng_permutation R 2 g) as [ids g2] eqn:E.
    pose proof (proj1 HR 2%Z g) as H. rewrite E in H. destruct ids; [|eexists; reflexivity].
    apply Permutation_length in H. discriminate.
Qed.

Lemma plain_default_every_n R py_int seed off len e n s num :
  0 < n -> ~ In ":"%char (list_ascii_of_string s) -> py_int s = Some num -> (0 < num)%Z ->
  exists out, get_seq_order_for_epoch R py_int (plain_cfg ("default_every_n:" ++ s) seed off) len (Some e) n = Ok out
    /\ Permutation out (seq 0 (Z.to_nat num * (n / Z.to_nat num))).
Proof.
  intros Hn Hs Hi Hpos. rewrite plain_order by auto. unfold base_order. cbn [seq_ordering plain_cfg].
  set (m := ("default_every_n:" ++ s)%string).
  assert (E1 : String.eqb m "default" = false) by reflexivity.
  assert (E2 : startswith m "default_every_n:" = true) by (unfold m; destruct s; reflexivity).
  assert (E3 : split_on ":"%char m = ["default_every_n"%string; s]).
  { change (split_on ":"%char m) with (let r := split_on ":"%char s in "default_every_n"%string :: r).
    cbv zeta. now rewrite split_on_none. }
  rewrite E1, E2, E3. unfold to_int. rewrite Hi. cbn [bind].
  destruct (Z.eqb_spec num 0); [lia|]. destruct (Z.ltb_spec num 0); [lia|].
  eexists. split; [reflexivity|]. apply default_every_n_perm. lia.
Qed.


Lemma plain_default_every_n_refuses R py_int seed off len e n s num :
  ~ In ":"%char (list_ascii_of_string s) -> py_int s = Some num -> (num <= 0)%Z ->
  exists err, get_seq_order_for_epoch R py_int (plain_cfg ("default_every_n:" ++ s) seed off) len (Some e) n = Err err.
Proof.
  intros Hs Hi Hneg. unfold get_seq_order_for_epoch. destruct (0 <? n); [|eexists; reflexivity]. cbn [assert_ bind]. unfold base_order. cbn [seq_ordering plain_cfg].
  set (m := ("default_every_n:" ++ s)%string).
  assert (E1 : String.eqb m "default" = false) by reflexivity.
  assert (E2 : startswith m "default_every_n:" = true) by (unfold m; destruct s; reflexivity).
  assert (E3 : split_on ":"%char m = ["default_every_n"%string; s]).
  { change (split_on ":"%char m) with (let r := split_on ":"%char s in "default_every_n"%string :: r).
    cbv zeta. now rewrite split_on_none. }
  rewrite E1, E2, E3. unfold to_int. rewrite Hi. cbn [bind].
  destruct (Z.eqb_spec num 0); [eexists; reflexivity|]. destruct (Z.ltb_spec num 0); [eexists; reflexivity|lia].
Qed.
Lemma apply_all {A} (l : list A) e : apply_partition_epoch_and_sharding l 1 (Some e) 1 0 = Ok l.
Proof.
  unfold apply_partition_epoch_and_sharding. cbn [Nat.ltb Nat.leb assert_ bind Nat.eqb Nat.mul Nat.add].
  rewrite !Nat.mod_1_r, Nat.div_1_r. cbn [repeat app Nat.sub Nat.mul Nat.add length list_sum fold_right]. unfold list_sum. cbn [fold_right]. rewrite Nat.add_0_r, Nat.eqb_refl.
  cbn [andb Nat.eqb assert_ bind cumsum fold_left app last Nat.add length]. unfold pyget. cbn [nth_error bind]. rewrite pyslice_all by lia. rewrite Nat.eqb_refl. reflexivity.
Qed.
Lemma random_order R py_int cfg len e n :
  0 < n -> 0 < e -> 0 < partition_epoch cfg -> seq_ordering cfg = "random"%string ->
  unique_seq_tags cfg = false -> repeat_epoch cfg <= 1 -> tags_filter cfg = None -> shard_index cfg < num_shards cfg ->
  let seed := match fixed_random_seed cfg with Some seed => seed | None => (Z.of_nat ((e - 1) / partition_epoch cfg + 1) + random_seed_offset cfg)%Z end in
  get_seq_order_for_epoch R py_int cfg len (Some e) n
  = apply_partition_epoch_and_sharding (fst (rng_permutation R (Z.of_nat n) (rng_seed R seed))) (partition_epoch cfg) (Some e) (num_shards cfg) (shard_index cfg).
Proof.
  intros Hn He HP Hm Hu Hr Ht Hs seed. unfold get_seq_order_for_epoch. apply Nat.ltb_lt in Hn. rewrite Hn. cbn [assert_ bind].
  assert (Hb : base_order R py_int cfg len e n = Ok (fst (rng_permutation R (Z.of_nat n) (rng_seed R seed)))).
  { unfold base_order. rewrite Hm. cbn -[get_random_seed_for_epoch]. f_equal. f_equal. f_equal. f_equal. unfold seed, get_random_seed_for_epoch. destruct (fixed_random_seed cfg) as [sd|]; [reflexivity|]. f_equal.
    assert (E : epoch_or_1 (Some e) = e) by (destruct e; [lia|reflexivity]). rewrite E. cbn [Z.ltb Z.compare].
    destruct (Nat.ltb_spec 1 (partition_epoch cfg)).
    - rewrite Nat2Z.inj_add, Nat2Z.inj_div by lia. rewrite Nat2Z.inj_sub by lia. reflexivity.
    - replace (partition_epoch cfg) with 1 by lia. rewrite Nat.div_1_r. change (1 <? 1)%Z with false. cbv iota. lia. }
  rewrite Hb. cbn [bind]. rewrite Hu. cbn [bind]. destruct (Nat.ltb_spec 1 (repeat_epoch cfg)); [lia|]. rewrite Ht.
  set (l := fst _). destruct (Nat.ltb_spec 1 (partition_epoch cfg)); cbn [orb].
  - destruct (apply_partition_epoch_and_sharding l (partition_epoch cfg) (Some e) (num_shards cfg) (shard_index cfg)); reflexivity.
  - destruct (Nat.ltb_spec 1 (num_shards cfg)).
    + destruct (apply_partition_epoch_and_sharding l (partition_epoch cfg) (Some e) (num_shards cfg) (shard_index cfg)); reflexivity.
    + replace (partition_epoch cfg) with 1 by lia. replace (num_shards cfg) with 1 by lia. replace (shard_index cfg) with 0 by lia. rewrite apply_all. reflexivity.
Qed.
