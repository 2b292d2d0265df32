(** Proofs about chunking and unchunking. *)
From Coq Require Import QArith Qcanon.
From Verif Require Import Base ListLemmas ChunkOpModel ChunkOpSpec.
Local Open Scope nat_scope.

Lemma mapo_ok : forall A B (f : A -> option B) (g : A -> B) l, (forall x, In x l -> f x = Some (g x)) -> mapo f l = Some (map g l).
Proof.
  intros A B f g l. induction l as [|x l IH]; intros H; [reflexivity|]. cbn [mapo map]. rewrite (H x) by (left; reflexivity). cbn [obind]. rewrite IH by (intros; apply H; right; assumption). reflexivity.
Qed.
Lemma grid_ok : forall A (f : nat -> nat -> option A) g nx ny, (forall x y, x < nx -> y < ny -> f x y = Some (g x y)) ->
  grid f nx ny = Some (map (fun x => map (fun y => g x y) (seq 0 ny)) (seq 0 nx)).
Proof.
  intros A f g nx ny H. unfold grid. apply mapo_ok. intros x Hx. apply in_seq in Hx. apply mapo_ok. intros y Hy. apply in_seq in Hy. apply H; lia.
Qed.
Definition gridl {A} (g : nat -> nat -> A) (nx ny : nat) : list (list A) := map (fun x => map (fun y => g x y) (seq 0 ny)) (seq 0 nx).
Lemma gridl_map : forall A B (h : A -> B) g nx ny, map (map h) (gridl g nx ny) = gridl (fun x y => h (g x y)) nx ny.
Proof. intros. unfold gridl. rewrite map_map. apply map_ext. intros x. rewrite map_map. reflexivity. Qed.
Lemma gridl_tensor : forall A (g : nat -> nat -> A) nx ny, tensor nx ny (gridl g nx ny).
Proof.
  intros. unfold gridl. split; [rewrite map_length, seq_length; reflexivity|]. apply Forall_forall. intros r Hr. apply in_map_iff in Hr. destruct Hr as (x & <- & _).
  rewrite map_length, seq_length. reflexivity.
Qed.
Lemma map_seq_nth : forall A (d : A) (g : nat -> A) n x, x < n -> nth x (map g (seq 0 n)) d = g x.
Proof. intros A d g n x H. rewrite (nth_indep _ d (g 0)) by (rewrite map_length, seq_length; exact H). rewrite map_nth, seq_nth by exact H. reflexivity. Qed.
Lemma gridl_val : forall A (d : A) (g : nat -> nat -> A) nx ny x y, x < nx -> y < ny -> val d (gridl g nx ny) x y = g x y.
Proof. intros. unfold val, gridl. rewrite map_seq_nth by assumption. apply map_seq_nth. assumption. Qed.
Lemma gridl_ext : forall A (f g : nat -> nat -> A) nx ny, (forall x y, x < nx -> y < ny -> f x y = g x y) -> gridl f nx ny = gridl g nx ny.
Proof. intros A f g nx ny H. unfold gridl. apply map_ext_in. intros x Hx. apply in_seq in Hx. apply map_ext_in. intros y Hy. apply in_seq in Hy. apply H; lia. Qed.
Lemma get2_ok : forall A (d : A) t nx ny x y, tensor nx ny t -> x < nx -> y < ny -> get2 t x y = Some (val d t x y).
Proof.
  intros A d t nx ny x y [L F] Hx Hy. unfold get2, val. destruct (nth_error t x) as [r|] eqn:E; [|apply nth_error_None in E; lia]. cbn [obind].
  rewrite (nth_error_nth _ _ _ E). rewrite Forall_forall in F. specialize (F r (nth_error_In _ _ E)).
  destruct (nth_error r y) as [v|] eqn:E'; [|apply nth_error_None in E'; lia]. rewrite (nth_error_nth _ _ _ E'). reflexivity.
Qed.
Lemma tensor_gridl : forall A (d : A) t nx ny, tensor nx ny t -> t = gridl (val d t) nx ny.
Proof.
  intros A d t nx ny [L F]. unfold gridl. apply nth_error_ext. intros x. rewrite nth_error_map. destruct (Nat.lt_ge_cases x nx) as [Q|Q].
  - rewrite nth_error_seq by exact Q. cbn [option_map Nat.add]. destruct (nth_error t x) as [r|] eqn:E; [|apply nth_error_None in E; lia]. f_equal.
    rewrite Forall_forall in F. specialize (F r (nth_error_In _ _ E)). apply nth_error_ext. intros y. rewrite nth_error_map. destruct (Nat.lt_ge_cases y ny) as [Q'|Q'].
    + rewrite nth_error_seq by exact Q'. cbn [option_map Nat.add]. unfold val. rewrite (nth_error_nth _ _ _ E). apply nth_error_nth'. lia.
    + transitivity (@None A); [apply nth_error_None; lia|]. replace (nth_error (seq 0 ny) y) with (@None nat); [reflexivity|]. symmetry. apply nth_error_None. rewrite seq_length. exact Q'.
  - transitivity (@None (list A)); [apply nth_error_None; lia|]. replace (nth_error (seq 0 nx) x) with (@None nat); [reflexivity|]. symmetry. apply nth_error_None. rewrite seq_length. exact Q.
Qed.

(** ** The number of chunks *)
Lemma n_chunks_pos : forall T s k, 0 < n_chunks T s k.
Proof. intros. unfold n_chunks. rewrite Nat.add_1_r. apply Nat.lt_0_succ. Qed.
Lemma n_chunks_cover : forall T s k, 0 < k -> T <= k * (n_chunks T s k - 1) + s.
Proof.
  intros T s k Hk. unfold n_chunks. rewrite Nat.add_sub. pose proof (Nat.div_mod (T + k - 1 - s) k ltac:(lia)) as D. pose proof (Nat.mod_upper_bound (T + k - 1 - s) k ltac:(lia)). lia.
Qed.
Lemma n_chunks_start : forall T s k, 0 < k -> k <= s -> 0 < T -> k * (n_chunks T s k - 1) < T.
Proof.
  intros T s k Hk Hs HT. unfold n_chunks. rewrite Nat.add_sub. pose proof (Nat.mul_div_le (T + k - 1 - s) k ltac:(lia)). lia.
Qed.
Lemma naive_starts_ok : forall T s k, 0 < k -> forall m t fuel, m < fuel -> m = (T + k - 1 - (t + s)) / k ->
  naive_starts fuel T s k t = Some (map (fun i => t + k * i) (seq 0 (m + 1))).
Proof.
  intros T s k Hk m. induction m as [|m IH]; intros t fuel Hf Hm; (destruct fuel as [|fuel]; [lia|]); cbn [naive_starts].
  - symmetry in Hm. apply Nat.div_small_iff in Hm; [|lia]. replace (T <=? t + s) with true by (symmetry; apply Nat.leb_le; lia). cbn [Nat.add seq map]. rewrite Nat.mul_0_r, Nat.add_0_r. reflexivity.
  - assert (Q : T + k - 1 - (t + s) = (T + k - 1 - (t + k + s)) + 1 * k).
    { assert (k <= T + k - 1 - (t + s)); [|lia]. destruct (Nat.lt_ge_cases (T + k - 1 - (t + s)) k) as [C|C]; [|exact C]. apply Nat.div_small in C. lia. }
    rewrite Q, Nat.div_add in Hm by lia.
    assert (T + k - 1 - (t + s) >= k) by lia. replace (T <=? t + s) with false by (symmetry; apply Nat.leb_gt; lia).
    rewrite (IH (t + k) fuel) by lia. cbn [obind]. f_equal. cbn [Nat.add seq map]. rewrite Nat.mul_0_r, Nat.add_0_r. f_equal. rewrite <- (seq_shift (m + 1) 0), map_map. apply map_ext. intros i. lia.
Qed.
Lemma naive_starts_n : forall T s k, 0 < k -> naive_starts (T + 1) T s k 0 = Some (map (fun c => k * c) (seq 0 (n_chunks T s k))).
Proof.
  intros T s k Hk. unfold n_chunks. rewrite (naive_starts_ok T s k Hk ((T + k - 1 - s) / k)); [reflexivity| |reflexivity].
  destruct (Nat.eq_dec T 0) as [->|HT]; [rewrite Nat.div_small by lia; lia|].
  assert ((T + k - 1 - s) / k <= T); [|lia]. apply Nat.div_le_upper_bound; [lia|]. nia.
Qed.

Lemma check_dims_ok : forall batch n size step T, 0 < batch -> 0 < n -> 0 < step -> T <= step * (n - 1) + size -> step * (n - 1) < T ->
  check_dims (batch * n) batch size size step T = Some n.
Proof.
  intros batch n size step T Hb Hn Hs H1 H2. unfold check_dims, require. replace (batch =? 0) with false by (symmetry; apply Nat.eqb_neq; lia).
  rewrite (Nat.mul_comm batch n), Nat.mod_mul, Nat.div_mul by lia. replace (0 <? n) with true by (symmetry; apply Nat.ltb_lt; lia). rewrite !Nat.eqb_refl.
  replace (0 <? step) with true by (symmetry; apply Nat.ltb_lt; lia). replace (T <=? step * (n - 1) + size) with true by (symmetry; apply Nat.leb_le; lia).
  replace (step * (n - 1) <? T) with true by (symmetry; apply Nat.ltb_lt; lia). reflexivity.
Qed.

(** ** Chunking *)
Section Chunk.
Variables (T batch size step n : nat).
Hypothesis (HT : 0 < T) (Hbatch : 0 < batch) (Hstep : 0 < step) (Hss : step <= size) (Hn : 0 < n).
Hypothesis (Hcover : T <= step * (n - 1) + size) (Hstart : step * (n - 1) < T).
Definition valid (index : list (list bool)) (t y : nat) : bool := (t <? T) && val false index t y.

Lemma copy_cell_ok : forall x index ox oy, tensor T batch x -> tensor T batch index -> ox < size -> oy < batch * n ->
  copy_cell x index T n step ox oy = Some (frame T x index (step * (oy mod n) + ox) (oy / n), valid index (step * (oy mod n) + ox) (oy / n)).
Proof.
  intros x index ox oy Tx Ti Hx Hy. assert (Hy' : oy / n < batch) by (apply Nat.div_lt_upper_bound; lia).
  unfold copy_cell, frame, valid. destruct (Nat.ltb_spec (step * (oy mod n) + ox) T) as [Q|Q]; cbn [obind andb].
  - rewrite (get2_ok _ false index T batch) by assumption. cbn [obind]. destruct (val false index _ _); [|reflexivity].
    rewrite (get2_ok _ 0%Qc x T batch) by assumption. reflexivity.
  - reflexivity.
Qed.
Definition chunked (x : list (list Qc)) (index : list (list bool)) : list (list Qc) := gridl (fun ox oy => frame T x index (step * (oy mod n) + ox) (oy / n)) size (batch * n).
Definition cindex (index : list (list bool)) : list (list bool) := gridl (fun ox oy => valid index (step * (oy mod n) + ox) (oy / n)) size (batch * n).

(** ** Unchunking *)
Lemma in_chunks : forall t c, t < T -> ((t + step - size) / step <= c /\ c < Nat.min (t / step + 1) n) <-> (c < n /\ step * c <= t /\ t < step * c + size).
Proof.
  intros t c Ht. split.
  - intros [H1 H2]. split; [lia|]. split.
    + assert (c <= t / step) by lia. pose proof (Nat.mul_div_le t step ltac:(lia)). nia.
    + pose proof (Nat.div_mod (t + step - size) step ltac:(lia)). pose proof (Nat.mod_upper_bound (t + step - size) step ltac:(lia)).
      assert (step * ((t + step - size) / step) <= step * c) by (apply Nat.mul_le_mono_l; exact H1). lia.
  - intros (H1 & H2 & H3). split.
    + assert ((t + step - size) / step < c + 1); [|lia]. apply Nat.div_lt_upper_bound; lia.
    + apply Nat.min_glb_lt; [|exact H1]. assert (c <= t / step); [|lia]. apply Nat.div_le_lower_bound; lia.
Qed.
Lemma chunks_nonempty : forall t, t < T -> (t + step - size) / step < Nat.min (t / step + 1) n.
Proof.
  intros t Ht. apply Nat.min_glb_lt.
  - assert ((t + step - size) / step <= t / step); [|lia]. apply Nat.div_le_mono; lia.
  - assert ((t + step - size) / step <= n - 1); [|lia]. assert ((t + step - size) / step < n - 1 + 1); [|lia]. apply Nat.div_lt_upper_bound; lia.
Qed.

Lemma lsum_app : forall f l1 l2, lsum f (l1 ++ l2) = (lsum f l1 + lsum f l2)%Qc.
Proof. intros f l1 l2. induction l1 as [|x l1 IH]; [cbn [app]; symmetry; apply Qcplus_0_l|]. cbn [app]. change (f x + lsum f (l1 ++ l2) = f x + lsum f l1 + lsum f l2)%Qc. rewrite IH. ring. Qed.
Lemma filter_none : forall A (p : A -> bool) l, (forall x, In x l -> p x = false) -> filter p l = [].
Proof. intros A p l. induction l as [|x l IH]; intros H; [reflexivity|]. cbn [filter]. rewrite (H x) by (left; reflexivity). apply IH. intros y Hy. apply H. right. exact Hy. Qed.
Lemma covering_range : forall ci t y, t < T ->
  covering n size step ci t y = filter (fun c => val false ci (t - step * c) (y * n + c))
    (seq ((t + step - size) / step) (Nat.min (t / step + 1) n - (t + step - size) / step)).
Proof.
  intros ci t y Ht. unfold covering. pose proof (chunks_nonempty t Ht) as Hne. set (a := (t + step - size) / step) in *. set (e := Nat.min (t / step + 1) n) in *.
  assert (Es : seq 0 n = seq 0 a ++ seq a (e - a) ++ seq (a + (e - a)) (n - e)) by (rewrite <- seq_app; replace (seq a (e - a + (n - e))) with (seq (0 + a) (e - a + (n - e))) by reflexivity; rewrite <- seq_app; f_equal; unfold e in *; lia).
  rewrite Es, !filter_app.
  rewrite filter_none, (filter_none _ _ (seq (a + (e - a)) (n - e))), app_nil_r; [cbn [app]| |].
  - apply filter_ext_in. intros c Hc. apply in_seq in Hc. destruct (in_chunks t c Ht) as [G _]. destruct G as (G1 & G2 & G3); [fold a e; lia|].
    replace (step * c <=? t) with true by (symmetry; apply Nat.leb_le; lia). replace (t <? step * c + size) with true by (symmetry; apply Nat.ltb_lt; lia). reflexivity.
  - intros c Hc. apply in_seq in Hc. destruct (Nat.leb_spec (step * c) t) as [Q1|Q1]; [|reflexivity]. destruct (Nat.ltb_spec t (step * c + size)) as [Q2|Q2]; [|reflexivity].
    exfalso. destruct (in_chunks t c Ht) as [_ G]. destruct G as (G1 & G2); [lia|]. fold a e in G1, G2. lia.
  - intros c Hc. apply in_seq in Hc. destruct (Nat.leb_spec (step * c) t) as [Q1|Q1]; [|reflexivity]. destruct (Nat.ltb_spec t (step * c + size)) as [Q2|Q2]; [|reflexivity].
    exfalso. destruct (in_chunks t c Ht) as [_ G]. destruct G as (G1 & G2); [unfold e in Hc; lia|]. fold a e in G1, G2. lia.
Qed.
Definition part (g : list (list Qc)) (t y c : nat) : Qc := val 0%Qc g (t - step * c) (y * n + c).
Lemma sum_chunks_ok : forall g ci t y, tensor size (batch * n) g -> tensor size (batch * n) ci -> t < T -> y < batch -> forall m c0 acc k,
  (forall c, c0 <= c < c0 + m -> c < n /\ step * c <= t /\ t < step * c + size) ->
  sum_chunks g ci size step n t y m c0 acc k =
    Some ((acc + lsum (part g t y) (filter (fun c => val false ci (t - step * c) (y * n + c)) (seq c0 m)))%Qc,
          k + length (filter (fun c => val false ci (t - step * c) (y * n + c)) (seq c0 m))).
Proof.
  intros g ci t y Tg Tc Ht Hy m. induction m as [|m IH]; intros c0 acc k H; [cbn [sum_chunks seq filter lsum fold_right length]; rewrite Qcplus_0_r, Nat.add_0_r; reflexivity|]. cbn [sum_chunks seq filter].
  destruct (H c0 ltac:(lia)) as (H1 & H2 & H3). unfold require. replace (step * c0 <=? t) with true by (symmetry; apply Nat.leb_le; lia).
  replace (t - step * c0 <? size) with true by (symmetry; apply Nat.ltb_lt; lia). cbn [obind].
  assert (Hyc : y * n + c0 < batch * n) by (apply (Nat.mul_le_mono_r (S y) batch n) in Hy; lia).
  rewrite (get2_ok _ false ci size (batch * n)) by (assumption || lia). cbn [obind].
  destruct (val false ci (t - step * c0) (y * n + c0)).
  - rewrite (get2_ok _ 0%Qc g size (batch * n)) by (assumption || lia). cbn [obind]. rewrite IH by (intros c Hc; apply H; lia). rewrite (Nat.add_1_r c0).
    cbn [length]. rewrite <- Nat.add_assoc. cbn [Nat.add]. f_equal. f_equal. unfold lsum. cbn [fold_right]. unfold part. ring.
  - rewrite IH by (intros c Hc; apply H; lia). rewrite (Nat.add_1_r c0). reflexivity.
Qed.
Definition mean_of (g : list (list Qc)) (ci : list (list bool)) (t y : nat) : Qc :=
  let l := covering n size step ci t y in if 0 <? length l then (lsum (part g t y) l / qn (length l))%Qc else 0%Qc.
Definition factor_of (ci : list (list bool)) (t y : nat) : Qc := let l := covering n size step ci t y in if 0 <? length l then (1 / qn (length l))%Qc else 1%Qc.
Lemma unchunk_cell_ok : forall g ci t y, tensor size (batch * n) g -> tensor size (batch * n) ci -> t < T -> y < batch ->
  unchunk_cell g ci size step n t y = Some (mean_of g ci t y, 0 <? length (covering n size step ci t y), factor_of ci t y).
Proof.
  intros g ci t y Tg Tc Ht Hy. unfold unchunk_cell, require. pose proof (chunks_nonempty t Ht) as Hne. pose proof Hne as Hne'. apply Nat.ltb_lt in Hne'. rewrite Hne'. cbn [obind].
  rewrite (sum_chunks_ok g ci t y Tg Tc Ht Hy).
  - cbn [obind]. rewrite <- covering_range by exact Ht. unfold mean_of, factor_of. cbn [Nat.add]. rewrite Qcplus_0_l. set (l := covering n size step ci t y).
    destruct (Nat.ltb_spec 0 (length l)) as [Q|Q]; [reflexivity|]. destruct l as [|c l]; [reflexivity|cbn in Q; lia].
  - intros c Hc. apply (in_chunks t c Ht). lia.
Qed.
Lemma unchunk_ok : forall g ci, tensor size (batch * n) g -> tensor size (batch * n) ci ->
  unchunk (batch * n) g ci size step T batch =
    Some (gridl (mean_of g ci) T batch, gridl (fun t y => 0 <? length (covering n size step ci t y)) T batch, gridl (factor_of ci) T batch).
Proof.
  intros g ci Tg Tc. unfold unchunk. destruct Tg as [Lg Fg]. rewrite Lg. rewrite check_dims_ok by assumption. cbn [obind].
  rewrite (grid_ok _ _ (fun t y => (mean_of g ci t y, 0 <? length (covering n size step ci t y), factor_of ci t y))) by (intros; apply unchunk_cell_ok; try assumption; split; assumption).
  cbn [obind]. fold (gridl (fun t y => (mean_of g ci t y, 0 <? length (covering n size step ci t y), factor_of ci t y)) T batch). rewrite !gridl_map. reflexivity.
Qed.
Lemma chunk_ok : forall x index, n = n_chunks T size step -> tensor T batch x -> tensor T batch index ->
  chunk T batch x index size step = Some (chunked x index, cindex index).
Proof.
  intros x index En Tx Ti. unfold chunk, require. replace (step =? 0) with false by (symmetry; apply Nat.eqb_neq; lia). cbn [negb obind]. rewrite <- En. rewrite check_dims_ok by assumption. cbn [obind].
  rewrite (grid_ok _ _ (fun ox oy => (frame T x index (step * (oy mod n) + ox) (oy / n), valid index (step * (oy mod n) + ox) (oy / n)))) by (intros; apply copy_cell_ok; assumption).
  cbn [obind]. fold (gridl (fun ox oy => (frame T x index (step * (oy mod n) + ox) (oy / n), valid index (step * (oy mod n) + ox) (oy / n))) size (batch * n)). rewrite !gridl_map. reflexivity.
Qed.
Lemma split_idx : forall y c, c < n -> (y * n + c) / n = y /\ (y * n + c) mod n = c.
Proof. intros y c Hc. split; [rewrite Nat.div_add_l, Nat.div_small by lia; lia|]. rewrite Nat.add_comm, Nat.mod_add by lia. apply Nat.mod_small. exact Hc. Qed.
Lemma idx_lt : forall y c, y < batch -> c < n -> y * n + c < batch * n.
Proof. intros y c Hy Hc. apply (Nat.mul_le_mono_r (S y) batch n) in Hy. lia. Qed.
Lemma chunked_val : forall x index ox y c, ox < size -> y < batch -> c < n -> val 0%Qc (chunked x index) ox (y * n + c) = frame T x index (step * c + ox) y.
Proof. intros x index ox y c Hx Hy Hc. unfold chunked. rewrite gridl_val by (try apply idx_lt; assumption). destruct (split_idx y c Hc) as [-> ->]. reflexivity. Qed.
Lemma cindex_val : forall index ox y c, ox < size -> y < batch -> c < n -> val false (cindex index) ox (y * n + c) = valid index (step * c + ox) y.
Proof. intros index ox y c Hx Hy Hc. unfold cindex. rewrite gridl_val by (try apply idx_lt; assumption). destruct (split_idx y c Hc) as [-> ->]. reflexivity. Qed.
Lemma cindex_same : forall index, same_mask T batch n size step index (cindex index).
Proof. intros index y c x Hy Hc Hx. apply cindex_val; assumption. Qed.

(** The chunks of a frame, when the mask is the one of the sequences *)
Lemma covering_same : forall index ci t y, same_mask T batch n size step index ci -> t < T -> y < batch ->
  covering n size step ci t y = if val false index t y then filter (fun c => (step * c <=? t) && (t <? step * c + size)) (seq 0 n) else [].
Proof.
  intros index ci t y Hs Ht Hy. unfold covering.
  rewrite (filter_ext_in _ (fun c => (step * c <=? t) && (t <? step * c + size) && val false index t y)).
  - destruct (val false index t y); [apply filter_ext; intros; apply Bool.andb_true_r|]. apply filter_none. intros. apply Bool.andb_false_r.
  - intros c Hc. apply in_seq in Hc. destruct (Nat.leb_spec (step * c) t) as [Q1|Q1]; [|reflexivity]. destruct (Nat.ltb_spec t (step * c + size)) as [Q2|Q2]; [|reflexivity].
    cbn [andb]. rewrite (Hs y c (t - step * c) Hy ltac:(lia) ltac:(lia)). replace (step * c + (t - step * c)) with t by lia.
    replace (t <? T) with true by (symmetry; apply Nat.ltb_lt; exact Ht). reflexivity.
Qed.
Lemma covered : forall t, t < T -> 0 < length (filter (fun c => (step * c <=? t) && (t <? step * c + size)) (seq 0 n)).
Proof.
  intros t Ht. pose proof (chunks_nonempty t Ht) as Hne. destruct (in_chunks t ((t + step - size) / step) Ht) as [G _]. destruct G as (G1 & G2 & G3); [lia|].
  destruct (filter _ (seq 0 n)) as [|c l] eqn:E; [|cbn; lia].
  assert (H : In ((t + step - size) / step) []); [|destruct H]. rewrite <- E. apply filter_In. split; [apply in_seq; split; [apply Nat.le_0_l|exact G1]|].
  apply Bool.andb_true_iff. split; [apply Nat.leb_le; exact G2|apply Nat.ltb_lt; exact G3].
Qed.
Lemma covering_valid : forall index ci t y, same_mask T batch n size step index ci -> t < T -> y < batch ->
  (0 <? length (covering n size step ci t y)) = val false index t y.
Proof.
  intros index ci t y Hs Ht Hy. rewrite (covering_same index) by assumption. destruct (val false index t y); [|reflexivity]. apply Nat.ltb_lt. apply covered. exact Ht.
Qed.

(** ** Round trip *)
Lemma qn_pos : forall m, 0 < m -> qn m <> 0%Qc.
Proof.
  intros m Hm E. apply (f_equal this) in E. unfold qn in E. cbn [this Q2Qc] in E. assert (G : (inject_Z (Z.of_nat m) == 0)%Q) by (rewrite <- (Qred_correct (inject_Z (Z.of_nat m))), E; reflexivity).
  unfold Qeq in G. cbn in G. lia.
Qed.
Lemma qn_S : forall m, qn (S m) = (1 + qn m)%Qc.
Proof. intros m. apply Qc_is_canon. unfold qn, Qcplus. cbn [this Q2Qc]. rewrite !Qred_correct, Nat2Z.inj_succ, <- Z.add_1_l, inject_Z_plus. reflexivity. Qed.
Lemma lsum_const : forall f v l, (forall c, In c l -> f c = v) -> lsum f l = (qn (length l) * v)%Qc.
Proof.
  intros f v l. induction l as [|c l IH]; intros H; [change (0%Qc = (qn 0 * v)%Qc); change (qn 0) with 0%Qc; ring|].
  change (lsum f (c :: l)) with (f c + lsum f l)%Qc. rewrite (H c) by (left; reflexivity). rewrite IH by (intros; apply H; right; assumption). cbn [length]. rewrite qn_S. ring.
Qed.
Lemma round_trip_cell : forall x index t y, t < T -> y < batch -> mean_of (chunked x index) (cindex index) t y = frame T x index t y.
Proof.
  intros x index t y Ht Hy. unfold mean_of. rewrite (covering_valid index _ t y (cindex_same index) Ht Hy). unfold frame. replace (t <? T) with true by (symmetry; apply Nat.ltb_lt; exact Ht). cbn [andb].
  rewrite (covering_same index _ t y (cindex_same index) Ht Hy). destruct (val false index t y) eqn:E; [|reflexivity].
  rewrite (lsum_const _ (val 0%Qc x t y)).
  - field. apply qn_pos, covered. exact Ht.
  - intros c Hc. apply filter_In in Hc. destruct Hc as [Hc1 Hc2]. apply in_seq in Hc1. apply Bool.andb_true_iff in Hc2. destruct Hc2 as [Hc2 Hc3]. apply Nat.leb_le in Hc2. apply Nat.ltb_lt in Hc3.
    unfold part. rewrite chunked_val by (assumption || lia). replace (step * c + (t - step * c)) with t by lia. unfold frame.
    replace (t <? T) with true by (symmetry; apply Nat.ltb_lt; exact Ht). rewrite E. reflexivity.
Qed.

(** ** Sums *)
Lemma sumn_ext : forall m f g, (forall i, i < m -> f i = g i) -> sumn m f = sumn m g.
Proof. intros m f g. induction m as [|m IH]; intros H; [reflexivity|]. cbn [sumn]. rewrite IH by (intros; apply H; lia). rewrite H by lia. reflexivity. Qed.
Lemma sumn_zero : forall m, sumn m (fun _ => 0%Qc) = 0%Qc.
Proof. induction m as [|m IH]; [reflexivity|]. cbn [sumn]. rewrite IH. ring. Qed.
Lemma sumn_plus : forall m f g, sumn m (fun i => (f i + g i)%Qc) = (sumn m f + sumn m g)%Qc.
Proof. intros m f g. induction m as [|m IH]; [cbn [sumn]; ring|]. cbn [sumn]. rewrite IH. ring. Qed.
Lemma sumn_scale : forall m f a, sumn m (fun i => (a * f i)%Qc) = (a * sumn m f)%Qc.
Proof. intros m f a. induction m as [|m IH]; [cbn [sumn]; ring|]. cbn [sumn]. rewrite IH. ring. Qed.
Lemma sumn_swap : forall m k f, sumn m (fun i => sumn k (fun j => f i j)) = sumn k (fun j => sumn m (fun i => f i j)).
Proof. intros m k f. induction m as [|m IH]; [cbn [sumn]; symmetry; apply sumn_zero|]. cbn [sumn]. rewrite IH, sumn_plus. reflexivity. Qed.
Lemma sumn_single : forall m k f, sumn m (fun i => if i =? k then f i else 0%Qc) = if k <? m then f k else 0%Qc.
Proof.
  intros m k f. induction m as [|m IH]; [reflexivity|]. cbn [sumn]. rewrite IH. destruct (Nat.eqb_spec m k) as [->|Q].
  - rewrite Nat.ltb_irrefl. replace (k <? S k) with true by (symmetry; apply Nat.ltb_lt; lia). ring.
  - destruct (Nat.ltb_spec k m), (Nat.ltb_spec k (S m)); try lia; ring.
Qed.
Lemma sumn_blocks : forall f m, sumn (m * n) f = sumn m (fun y => sumn n (fun c => f (y * n + c))).
Proof.
  intros f m. induction m as [|m IH]; [reflexivity|]. cbn [sumn]. rewrite <- IH. replace (S m * n) with (m * n + n) by lia. generalize n as k. clear.
  intros k. generalize (m * k) as b. induction k as [|k IH]; intros b; [rewrite Nat.add_0_r; cbn [sumn]; ring|]. rewrite Nat.add_succ_r. cbn [sumn]. rewrite IH. ring.
Qed.
Lemma lsum_filter : forall f p m, lsum f (filter p (seq 0 m)) = sumn m (fun c => if p c then f c else 0%Qc).
Proof.
  intros f p m. induction m as [|m IH]; [reflexivity|]. rewrite seq_S, filter_app, lsum_app, IH. cbn [sumn Nat.add filter]. f_equal. destruct (p m); [|reflexivity]. unfold lsum. cbn [fold_right]. ring.
Qed.
(** A sum over the frames of a chunk is a sum over the frames of the sequence. *)
Lemma shift_sum : forall c F, sumn size (fun ox => if step * c + ox <? T then F (step * c + ox) ox else 0%Qc)
  = sumn T (fun t => if (step * c <=? t) && (t <? step * c + size) then F t (t - step * c) else 0%Qc).
Proof.
  intros c F. transitivity (sumn size (fun ox => sumn T (fun t => if t =? step * c + ox then F t ox else 0%Qc))).
  - apply sumn_ext. intros ox Hox. rewrite (sumn_single T (step * c + ox) (fun t => F t ox)). reflexivity.
  - rewrite sumn_swap. apply sumn_ext. intros t Ht. destruct (Nat.leb_spec (step * c) t) as [Q|Q].
    + rewrite (sumn_ext _ _ (fun ox => if ox =? t - step * c then F t ox else 0%Qc)).
      * rewrite (sumn_single size (t - step * c) (fun ox => F t ox)). cbn [andb]. destruct (Nat.ltb_spec (t - step * c) size), (Nat.ltb_spec t (step * c + size)); try lia; reflexivity.
      * intros ox Hox. destruct (Nat.eqb_spec t (step * c + ox)), (Nat.eqb_spec ox (t - step * c)); try lia; reflexivity.
    + cbn [andb]. transitivity (sumn size (fun _ => 0%Qc)); [|apply sumn_zero]. apply sumn_ext. intros ox Hox. destruct (Nat.eqb_spec t (step * c + ox)); [lia|reflexivity].
Qed.
Definition inside (t c : nat) : bool := (step * c <=? t) && (t <? step * c + size).
Lemma exchange : forall (H : nat -> nat -> Qc) (G : nat -> nat -> Qc),
  sumn size (fun ox => sumn (batch * n) (fun oy => (Qcmult (if step * (oy mod n) + ox <? T then H (step * (oy mod n) + ox) (oy / n) else 0%Qc) (G ox oy))))
  = sumn T (fun t => sumn batch (fun y => (Qcmult (H t y) (sumn n (fun c => if inside t c then G (t - step * c) (y * n + c) else 0%Qc))))).
Proof.
  intros H G. rewrite sumn_swap, sumn_blocks, (sumn_swap T batch). apply sumn_ext. intros y Hy.
  transitivity (sumn n (fun c => sumn T (fun t => if inside t c then (Qcmult (H t y) (G (t - step * c) (y * n + c))) else 0%Qc))).
  - apply sumn_ext. intros c Hc. destruct (split_idx y c Hc) as [-> ->]. etransitivity; [|exact (shift_sum c (fun t ox => (H t y * G ox (y * n + c)%nat)%Qc))].
    apply sumn_ext. intros ox Hox. destruct (step * c + ox <? T); [reflexivity|]. ring.
  - rewrite sumn_swap. apply sumn_ext. intros t Ht. rewrite <- sumn_scale. apply sumn_ext. intros c Hc. destruct (inside t c); [reflexivity|]. ring.
Qed.

(** ** The gradients *)
Lemma zip_gridl : forall A B C (f : A -> B -> C) g h nx ny, zip_with2 f (gridl g nx ny) (gridl h nx ny) = gridl (fun x y => f (g x y) (h x y)) nx ny.
Proof.
  intros A B C f g h nx ny. unfold zip_with2, gridl.
  assert (Z : forall D (p q : nat -> D), forall (l : list nat), True) by auto.
  assert (comb : forall D E (p : nat -> D) (q : nat -> E) l, combine (map p l) (map q l) = map (fun i => (p i, q i)) l).
  { intros D E p q l. induction l as [|i l IH]; [reflexivity|]. cbn [map combine]. rewrite IH. reflexivity. }
  rewrite comb, map_map. apply map_ext. intros x. cbn [fst snd]. rewrite comb, map_map. reflexivity.
Qed.
Lemma sum_same : forall index ci g t y, same_mask T batch n size step index ci -> t < T -> y < batch ->
  lsum (part g t y) (covering n size step ci t y) = ((if val false index t y then 1 else 0) * sumn n (fun c => if inside t c then part g t y c else 0))%Qc.
Proof.
  intros index ci g t y Hs Ht Hy. rewrite (covering_same index) by assumption. destruct (val false index t y); [|cbn [lsum fold_right]; ring]. rewrite lsum_filter. ring_simplify. reflexivity.
Qed.
Lemma mean_factor : forall index ci g t y, same_mask T batch n size step index ci -> t < T -> y < batch ->
  mean_of g ci t y = (factor_of ci t y * ((if val false index t y then 1 else 0) * sumn n (fun c => if inside t c then part g t y c else 0)))%Qc.
Proof.
  intros index ci g t y Hs Ht Hy. rewrite <- (sum_same index ci g t y Hs Ht Hy). unfold mean_of, factor_of. destruct (Nat.ltb_spec 0 (length (covering n size step ci t y))) as [Q|Q].
  - field. apply qn_pos. exact Q.
  - destruct (covering n size step ci t y); [cbn [lsum fold_right]; ring|cbn in Q; lia].
Qed.
Lemma chunk_grad_ok : forall index ci g, n = n_chunks T size step -> tensor size (batch * n) g -> tensor size (batch * n) ci -> same_mask T batch n size step index ci ->
  chunk_grad T batch ci g size step = Some (gridl (fun t y => ((if val false index t y then 1 else 0) * sumn n (fun c => if inside t c then part g t y c else 0))%Qc) T batch).
Proof.
  intros index ci g En Tg Tc Hs. unfold chunk_grad. rewrite <- En, unchunk_ok by assumption. cbn [obind]. rewrite zip_gridl. f_equal. apply gridl_ext. intros t y Ht Hy.
  rewrite (mean_factor index) by assumption. unfold factor_of. destruct (Nat.ltb_spec 0 (length (covering n size step ci t y))) as [Q|Q].
  - field. split; [apply qn_pos; exact Q|]. intros E. inversion E.
  - field. intros E. inversion E.
Qed.
Theorem chunk_adjoint : forall x index g gr, n = n_chunks T size step -> tensor T batch x -> tensor T batch index -> tensor size (batch * n) g ->
  chunk_grad T batch (cindex index) g size step = Some gr -> dot size (batch * n) (chunked x index) g = dot T batch x gr.
Proof.
  intros x index g gr En Tx Ti Tg E. rewrite (chunk_grad_ok index) in E by (try apply gridl_tensor; try apply cindex_same; assumption). injection E as <-.
  unfold dot. pose proof (exchange (fun t y => if val false index t y then val 0%Qc x t y else 0%Qc) (val 0%Qc g)) as X.
  transitivity (sumn size (fun ox => sumn (batch * n) (fun oy => (Qcmult (if step * (oy mod n) + ox <? T then (if val false index (step * (oy mod n) + ox) (oy / n) then val 0%Qc x (step * (oy mod n) + ox) (oy / n) else 0%Qc) else 0%Qc) (val 0%Qc g ox oy))))).
  - apply sumn_ext. intros ox Hox. apply sumn_ext. intros oy Hoy. unfold chunked. rewrite gridl_val by assumption. unfold frame. destruct (step * (oy mod n) + ox <? T); reflexivity.
  - rewrite X. apply sumn_ext. intros t Ht. apply sumn_ext. intros y Hy. rewrite gridl_val by assumption. unfold part. destruct (val false index t y); ring.
Qed.
Theorem unchunk_adjoint : forall g index ci gout gr, n = n_chunks T size step -> tensor size (batch * n) g -> tensor size (batch * n) ci -> tensor T batch index -> tensor T batch gout ->
  same_mask T batch n size step index ci ->
  unchunk_grad T batch (gridl (fun t y => 0 <? length (covering n size step ci t y)) T batch) (gridl (factor_of ci) T batch) gout size step = Some gr ->
  dot T batch (gridl (mean_of g ci) T batch) gout = dot size (batch * n) g gr.
Proof.
  intros g index ci gout gr En Tg Tc Ti To Hs E. unfold unchunk_grad in E. rewrite (tensor_gridl _ 0%Qc gout T batch To), zip_gridl in E.
  rewrite chunk_ok in E by (try apply gridl_tensor; assumption). cbn [obind fst] in E. injection E as <-.
  unfold dot. pose proof (exchange (fun t y => if val false index t y then (val 0 gout t y * factor_of ci t y)%Qc else 0%Qc) (val 0%Qc g)) as X.
  transitivity (sumn T (fun t => sumn batch (fun y => (Qcmult (if val false index t y then (val 0 gout t y * factor_of ci t y)%Qc else 0%Qc) (sumn n (fun c => if inside t c then val 0%Qc g (t - step * c) (y * n + c) else 0%Qc)))))).
  - apply sumn_ext. intros t Ht. apply sumn_ext. intros y Hy. rewrite gridl_val by assumption. rewrite (mean_factor index) by assumption. unfold part. destruct (val false index t y); ring.
  - rewrite <- X. apply sumn_ext. intros ox Hox. apply sumn_ext. intros oy Hoy. unfold chunked. rewrite gridl_val by assumption. unfold frame.
    assert (Hy : oy / n < batch) by (apply Nat.div_lt_upper_bound; lia).
    destruct (Nat.ltb_spec (step * (oy mod n) + ox) T) as [Q|Q]; cbn [andb]; [|ring]. rewrite !gridl_val by assumption. rewrite (covering_valid index) by assumption.
    destruct (val false index (step * (oy mod n) + ox) (oy / n)); ring.
Qed.
End Chunk.
