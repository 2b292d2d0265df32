From Coq Require Import String Sorted.
From Verif Require Import Base ListLemmas PyDict SeqOrderModel CombinedModel CombinedSpec.
Local Open Scope nat_scope. Local Open Scope list_scope.
Local Notation length := List.length.
Local Notation concat := List.concat.

(** ** set_at *)
Lemma set_at_len {A} f (l : list A) : forall d, length (set_at l d f) = length l.
Proof. induction l as [|x l IH]; intros [|d]; cbn; auto. Qed.
Lemma nth_set_at {A} f (l : list A) z : forall d e, d < length l -> nth e (set_at l d f) z = if e =? d then f (nth d l z) else nth e l z.
Proof.
  induction l as [|x l IH]; intros [|d] [|e] H; cbn in *; try lia; try reflexivity. rewrite IH by lia. reflexivity.
Qed.
Lemma pyget_nth {A} (l : list A) i z : i < length l -> pyget l i = Ok (nth i l z).
Proof. intros H. unfold pyget. now rewrite (nth_error_nth' l z H). Qed.
Lemma pyget_Some {A} (l : list A) i x : nth_error l i = Some x -> pyget l i = Ok x.
Proof. intros H. unfold pyget. now rewrite H. Qed.
Lemma map_set_at {A B} (g : A -> B) f f' l : (forall x, g (f x) = f' (g x)) -> forall d, map g (set_at l d f) = set_at (map g l) d f'.
Proof. intros H. induction l as [|x l IH]; intros [|d]; cbn; [reflexivity|reflexivity|now rewrite H|now rewrite IH]. Qed.
Lemma nth_error_nth2 {A} (l : list A) i x z : nth_error l i = Some x -> nth i l z = x.
Proof. revert i. induction l as [|a l IH]; intros [|i] H; try discriminate; cbn in *; [congruence|auto]. Qed.

(** ** boundaries *)
Fixpoint bnds (acc : nat) (sizes : list nat) : list nat := match sizes with [] => [] | n :: r => (acc + n) :: bnds (acc + n) r end.
Lemma boundaries_loop sizes : forall b, b <> [] -> fold_left (fun b n => b ++ [n + last b 0]) sizes b = b ++ bnds (last b 0) sizes.
Proof.
  induction sizes as [|n r IH]; intros b Hb; cbn [fold_left bnds]; [now rewrite app_nil_r|]. rewrite IH by (intros E; apply app_eq_nil in E; destruct E; discriminate). rewrite last_last, <- app_assoc. cbn [app]. now rewrite Nat.add_comm.
Qed.
Lemma boundaries_eq sizes : boundaries sizes = 0 :: bnds 0 sizes.
Proof. unfold boundaries. rewrite boundaries_loop by discriminate. reflexivity. Qed.
Lemma bnds_last sizes : forall acc, last (acc :: bnds acc sizes) 0 = acc + list_sum sizes.
Proof.
  induction sizes as [|n r IH]; intros acc; [cbn; lia|]. cbn [bnds]. change (last (acc :: acc + n :: bnds (acc + n) r) 0) with (last (acc + n :: bnds (acc + n) r) 0). rewrite IH. cbn. unfold list_sum. lia.
Qed.
Lemma bnds_nth sizes : forall acc d, d <= length sizes -> nth d (acc :: bnds acc sizes) 0 = acc + list_sum (firstn d sizes).
Proof.
  induction sizes as [|n r IH]; intros acc [|d] H; try (cbn in *; lia). cbn [bnds firstn list_sum fold_right]. change (nth (S d) (acc :: acc + n :: bnds (acc + n) r) 0) with (nth d (acc + n :: bnds (acc + n) r) 0). cbn [length] in H. rewrite IH by lia. unfold list_sum. cbn. lia.
Qed.
Lemma bounds_len sizes : length (boundaries sizes) = S (length sizes).
Proof. rewrite boundaries_eq. cbn. f_equal. generalize 0. induction sizes; intros; cbn; auto. Qed.
Definition total (corpus : list (list nat)) : nat := list_sum (map (@length nat) corpus).
Lemma all_seqs_len corpus : forall d, length (all_seqs_from d corpus) = total corpus.
Proof. unfold total. induction corpus as [|l r IH]; intros d; [reflexivity|]. cbn. rewrite app_length, map_length, IH. reflexivity. Qed.

Lemma find_ok corpus : forall d acc s, acc <= s < acc + total corpus -> exists i j l c, find_dataset (bnds acc (map (@length nat) corpus)) d acc s = Ok (d + i, j) /\ nth_error corpus i = Some l /\ nth_error l j = Some c /\ nth_error (all_seqs_from d corpus) (s - acc) = Some (d + i, c) /\ s = acc + list_sum (map (@length nat) (firstn i corpus)) + j.
Proof.
  unfold total. induction corpus as [|l r IH]; intros d acc s H; [cbn in H; lia|]. cbn [map bnds find_dataset list_sum fold_right] in *. destruct (Nat.leb_spec (acc + length l) s).
  - destruct (IH (S d) (acc + length l) s) as (i&j&l'&c&H1&H2&H3&H4&H5); [unfold list_sum; lia|]. exists (S i), j, l', c. rewrite H1. split; [do 2 f_equal; lia|]. split; [exact H2|]. split; [exact H3|]. cbn [all_seqs_from firstn map list_sum fold_right]. split; [|unfold list_sum in *; lia]. rewrite nth_error_app2 by (rewrite map_length; lia). rewrite map_length. replace (s - acc - length l) with (s - (acc + length l)) by lia. rewrite H4. do 2 f_equal. lia.
  - destruct (nth_error l (s - acc)) as [c|] eqn:E; [|apply nth_error_None in E; lia]. exists 0, (s - acc), l, c. rewrite Nat.add_0_r. split; [reflexivity|]. split; [reflexivity|]. split; [exact E|]. cbn [all_seqs_from]. split; [|cbn; lia]. rewrite nth_error_app1 by (rewrite map_length; lia). now rewrite nth_error_map, E.
Qed.
Lemma to_ds_ok corpus s : s < total corpus -> exists d j l c, to_dataset_seq_idx (boundaries (map (@length nat) corpus)) s = Ok (d, j) /\ nth_error corpus d = Some l /\ nth_error l j = Some c /\ nth_error (all_seqs corpus) s = Some (d, c) /\ s = list_sum (map (@length nat) (firstn d corpus)) + j.
Proof.
  intros H. unfold to_dataset_seq_idx. rewrite boundaries_eq, bnds_last. fold (total corpus). destruct (Nat.ltb_spec s (0 + total corpus)); [|lia]. cbn [assert_ bind]. destruct (find_ok corpus 0 0 s) as (i&j&l&c&->&H2&H3&H4&H5); [lia|]. exists i, j, l, c. rewrite Nat.sub_0_r in H4. cbn in *. auto.
Qed.
Lemma to_ds_conv corpus d j l c : nth_error corpus d = Some l -> nth_error l j = Some c -> let s := list_sum (map (@length nat) (firstn d corpus)) + j in
  s < total corpus /\ nth_error (all_seqs corpus) s = Some (d, c).
Proof.
  unfold all_seqs, total. assert (forall e, nth_error corpus d = Some l -> nth_error l j = Some c -> list_sum (map (@length nat) (firstn d corpus)) + j < list_sum (map (@length nat) corpus) /\ nth_error (all_seqs_from e corpus) (list_sum (map (@length nat) (firstn d corpus)) + j) = Some (e + d, c)); [|intros; now apply (H 0)].
  revert d. induction corpus as [|x r IH]; intros [|d] e H1 H2; try discriminate; cbn [nth_error firstn map list_sum fold_right all_seqs_from] in *.
  - injection H1 as ->. assert (j < length l) by (apply nth_error_Some; congruence). split; [unfold list_sum; lia|]. cbn [Nat.add]. rewrite nth_error_app1, nth_error_map, H2 by (rewrite map_length; lia). cbn. do 2 f_equal. lia.
  - destruct (IH d (S e) H1 H2) as (H3&H4). unfold list_sum in *. split; [lia|]. rewrite nth_error_app2 by (rewrite map_length; lia). rewrite map_length. match goal with |- nth_error _ ?a = _ => match type of H4 with nth_error _ ?b = _ => replace a with b by lia end end. rewrite H4. do 2 f_equal. lia.
Qed.

(** ** the known case *)
Lemma of_dataset_app d l l' : of_dataset d (l ++ l') = of_dataset d l ++ of_dataset d l'.
Proof. unfold of_dataset. now rewrite filter_app, map_app. Qed.
Lemma of_dataset_cons d e c l : of_dataset d ((e, c) :: l) = if e =? d then c :: of_dataset d l else of_dataset d l.
Proof. unfold of_dataset. cbn. destruct (e =? d); reflexivity. Qed.
Definition item (corpus : list (list nat)) (s : nat) : nat * nat := nth s (all_seqs corpus) (0, 0).
Lemma known_loop corpus order : Forall (fun s => s < total corpus) order -> forall acc, length acc = length corpus ->
  exists t acc', sorted_idx_list (boundaries (map (@length nat) corpus)) (map (@length nat) acc) order = Ok t /\ sub_orders (boundaries (map (@length nat) corpus)) corpus acc order = Ok acc' /\ length acc' = length corpus /\
    (forall d, d < length corpus -> nth d acc' [] = nth d acc [] ++ of_dataset d (map (item corpus) order)) /\
    (forall d, d < length corpus -> of_dataset d t = seq (length (nth d acc [])) (length (of_dataset d (map (item corpus) order)))) /\
    map fst t = map fst (map (item corpus) order) /\
    (forall k s, nth_error order k = Some s -> at_position t acc' k = Ok (item corpus s)).
Proof.
  induction 1 as [|s order Hs Ho IH]; intros acc Hl; cbn [sorted_idx_list sub_orders].
  - exists [], acc. split; [reflexivity|]. split; [reflexivity|]. split; [exact Hl|]. cbn [map]. split; [intros; cbn; now rewrite app_nil_r|]. split; [reflexivity|]. split; [reflexivity|]. intros [|k]; discriminate.
  - destruct (to_ds_ok corpus s Hs) as (d&j&l&c&E1&E2&E3&E4&_). rewrite E1. cbn [bind fst snd]. assert (Hd : d < length corpus) by (apply nth_error_Some; congruence).
    assert (Hi : item corpus s = (d, c)) by (unfold item; now apply nth_error_nth2).
    rewrite (pyget_nth _ d 0) by (rewrite map_length; lia). rewrite (pyget_Some _ _ _ E2). cbn [bind]. rewrite (pyget_Some _ _ _ E3). cbn [bind].
    rewrite <- (map_set_at (@length nat) (fun o => o ++ [c]) S) by (intros; rewrite app_length; cbn; lia).
    destruct (IH (set_at acc d (fun o => o ++ [c]))) as (t&acc'&H1&H2&H3&H4&H5&H6&H7); [rewrite set_at_len; exact Hl|]. rewrite H1, H2. cbn [bind].
    assert (Hn : nth d (map (@length nat) acc) 0 = length (nth d acc [])) by (change 0 with (length (@nil nat)); apply map_nth). rewrite Hn.
    eexists. exists acc'. split; [reflexivity|]. split; [reflexivity|]. split; [exact H3|]. cbn [map]. rewrite Hi. split; [|split; [|split]].
    + intros e He. rewrite H4 by exact He. rewrite nth_set_at by lia. rewrite of_dataset_cons. rewrite (Nat.eqb_sym d e). destruct (Nat.eqb_spec e d) as [-> |]; [now rewrite <- app_assoc|reflexivity].
    + intros e He. rewrite !of_dataset_cons. rewrite H5 by exact He. rewrite nth_set_at by lia. rewrite (Nat.eqb_sym d e). destruct (Nat.eqb_spec e d) as [-> |]; [|reflexivity]. cbn [length seq]. rewrite app_length. cbn [length]. do 2 f_equal; lia.
    + cbn [map fst]. now rewrite H6.
    + intros [|k] s' Hk; cbn [nth_error] in Hk.
      * injection Hk as <-. unfold at_position. cbn [pyget nth_error bind fst snd]. change (pyget ((d, length (nth d acc [])) :: t) 0) with (Ok (d, length (nth d acc []))). cbn [bind fst snd]. rewrite (pyget_nth _ d []) by lia. cbn [bind]. rewrite H4 by exact Hd. rewrite nth_set_at, Nat.eqb_refl by lia. rewrite (pyget_Some _ _ c). { cbn [bind]. now rewrite Hi. } rewrite <- app_assoc. rewrite nth_error_app2, Nat.sub_diag by lia. reflexivity.
      * exact (H7 k s' Hk).
Qed.
Lemma init_known_ok corpus order : Forall (fun s => s < total corpus) order -> exists t orders, init_known corpus order = Ok (t, orders, map (@length nat) orders) /\ length orders = length corpus /\
    (forall d, d < length corpus -> nth d orders [] = of_dataset d (map (item corpus) order)) /\
    (forall d, d < length corpus -> of_dataset d t = seq 0 (length (nth d orders []))) /\ length t = length order /\
    (forall k s, nth_error order k = Some s -> at_position t orders k = Ok (item corpus s)).
Proof.
  intros H. unfold init_known. destruct (known_loop corpus order H (repeat [] (length corpus)) (repeat_length _ _)) as (t&o&H1&H2&H3&H4&H5&H6&H7).
  replace (map (@length nat) (repeat [] (length corpus))) with (repeat 0 (length corpus)) in H1. 2:{ clear. induction corpus as [|x r IH]; cbn; [reflexivity|]. f_equal. exact IH. } rewrite H1, H2. cbn [bind]. exists t, o. split; [reflexivity|]. split; [exact H3|].
  assert (Hr : forall d, d < length corpus -> nth d (repeat (@nil nat) (length corpus)) [] = []) by (intros d _; generalize (length corpus) as n; revert d; induction d as [|d IHd]; intros [|n]; cbn; auto).
  split; [intros d Hd; rewrite H4, Hr by exact Hd; reflexivity|]. split; [intros d Hd; rewrite H5, H4, Hr by exact Hd; reflexivity|]. split; [|exact H7]. apply (f_equal (@length _)) in H6. now rewrite !map_length in H6.
Qed.

(** ** loading *)
Lemma fold_min_seq n : forall a b, b <= a -> fold_left Nat.min (seq a n) b = b.
Proof. induction n as [|n IH]; intros a b H; cbn; [reflexivity|]. rewrite Nat.min_l by lia. apply IH. lia. Qed.
Lemma fold_max_seq n : forall a, fold_left Nat.max (seq (S a) n) a = a + n.
Proof. induction n as [|n IH]; intros a; cbn; [lia|]. rewrite Nat.max_r by lia. rewrite IH. lia. Qed.
Lemma seq_app_inv l : forall l' a n, l ++ l' = seq a n -> l = seq a (length l) /\ l' = seq (a + length l) (length l').
Proof.
  induction l as [|x l IH]; intros l' a n H; cbn [app length] in *; [split; [reflexivity|]; rewrite Nat.add_0_r, H, seq_length; reflexivity|]. destruct n as [|n]; [discriminate|]. cbn [seq] in *. injection H as -> H. destruct (IH _ _ _ H) as (H1&H2). split; [f_equal; exact H1|]. rewrite H2 at 1. f_equal. lia.
Qed.
Lemma window_seq tbl d n a b : of_dataset d tbl = seq 0 n -> of_dataset d (pyslice tbl a b) = seq (length (of_dataset d (firstn a tbl))) (length (of_dataset d (pyslice tbl a b))).
Proof.
  intros H. assert (E : tbl = firstn a tbl ++ pyslice tbl a b ++ skipn (b - a) (skipn a tbl)) by (unfold pyslice; now rewrite !firstn_skipn). rewrite E in H at 1. rewrite !of_dataset_app in H. apply seq_app_inv in H. destruct H as (_&H). apply seq_app_inv in H. destruct H as (H&_). exact H.
Qed.
Lemma load_range_spec m tbl a b d lo hi : (forall d, d < m -> exists n, of_dataset d tbl = seq 0 n) -> In (d, (lo, hi)) (load_ranges m tbl a b) -> d < m /\ of_dataset d (pyslice tbl a b) = seq lo (hi - lo) /\ lo < hi /\ lo = length (of_dataset d (firstn a tbl)).
Proof.
  intros H Hi. unfold load_ranges in Hi. apply in_flat_map in Hi. destruct Hi as (e&He&Hi). apply in_seq in He. destruct (H e) as (n&Hn); [lia|]. pose proof (window_seq tbl e n a b Hn) as Hw. change (map snd (filter (fun s => fst s =? e) (pyslice tbl a b))) with (of_dataset e (pyslice tbl a b)) in Hi. destruct (of_dataset e (pyslice tbl a b)) as [|j js] eqn:E; [contradiction|]. destruct Hi as [Hi|[]]. injection Hi as <- <- <-. cbn [length seq] in Hw. injection Hw as -> Hw. rewrite Hw. rewrite fold_min_seq, fold_max_seq by lia. split; [lia|]. split; [|split; [lia|reflexivity]]. rewrite E. cbn [length]. rewrite Hw at 1. set (p := length (of_dataset e (firstn a tbl))). replace (p + length js + 1 - p) with (S (length js)) by lia. reflexivity.
Qed.
Lemma load_range_ex m tbl a b d j : (forall d, d < m -> exists n, of_dataset d tbl = seq 0 n) -> d < m -> In (d, j) (pyslice tbl a b) -> exists lo hi, In (d, (lo, hi)) (load_ranges m tbl a b) /\ lo <= j < hi.
Proof.
  intros H Hd Hi. assert (Hj : In j (of_dataset d (pyslice tbl a b))). { unfold of_dataset. apply in_map_iff. exists (d, j). split; [reflexivity|]. apply filter_In. split; [exact Hi|apply Nat.eqb_refl]. }
  assert (Hin : exists lo hi, In (d, (lo, hi)) (load_ranges m tbl a b)). { unfold load_ranges. destruct (of_dataset d (pyslice tbl a b)) as [|x js] eqn:E; [contradiction|]. do 2 eexists. apply in_flat_map. exists d. split; [apply in_seq; lia|]. change (map snd (filter (fun s => fst s =? d) (pyslice tbl a b))) with (of_dataset d (pyslice tbl a b)). rewrite E. left. reflexivity. }
  destruct Hin as (lo&hi&Hin). exists lo, hi. split; [exact Hin|]. destruct (load_range_spec _ _ _ _ _ _ _ H Hin) as (_&E&_&_). rewrite E in Hj. apply in_seq in Hj. lia.
Qed.
Lemma load_range_mono m tbl a b a' b' d lo hi lo' hi' : (forall d, d < m -> exists n, of_dataset d tbl = seq 0 n) -> a <= a' -> In (d, (lo, hi)) (load_ranges m tbl a b) -> In (d, (lo', hi')) (load_ranges m tbl a' b') -> lo <= lo'.
Proof.
  intros H Ha H1 H2. destruct (load_range_spec _ _ _ _ _ _ _ H H1) as (_&_&_&->). destruct (load_range_spec _ _ _ _ _ _ _ H H2) as (_&_&_&->). rewrite <- (firstn_skipn a (firstn a' tbl)), of_dataset_app, firstn_firstn, Nat.min_l, app_length by lia. lia.
Qed.

(** ** random_dataset *)
Lemma count_occ_cons' d ids e : count_occ Nat.eq_dec (d :: ids) e = if e =? d then S (count_occ Nat.eq_dec ids e) else count_occ Nat.eq_dec ids e.
Proof. cbn. destruct (Nat.eq_dec d e), (Nat.eqb_spec e d); congruence. Qed.
Lemma count_up_spec bounds ids : forall counters, length counters < length bounds -> Forall (fun d => d < length counters) ids ->
  exists P, count_up bounds counters ids = Ok (map (fun dc => snd dc + nth (fst dc) bounds 0) P, map (fun d => nth d counters 0 + count_occ Nat.eq_dec ids d) (seq 0 (length counters))) /\ map fst P = ids /\
    forall d, of_dataset d P = seq (nth d counters 0) (count_occ Nat.eq_dec ids d).
Proof.
  induction ids as [|d ids IH]; intros counters Hc H; cbn [count_up].
  - exists []. split; [|split; [reflexivity|intros; reflexivity]]. cbn [map]. do 2 f_equal. apply nth_error_ext. intros i. rewrite nth_error_map. destruct (Nat.ltb_spec i (length counters)) as [Hi|Hi].
    + rewrite nth_error_seq by exact Hi. cbn. rewrite (nth_error_nth' counters 0 Hi). f_equal. lia.
    + rewrite (proj2 (nth_error_None counters i)) by lia. rewrite (proj2 (nth_error_None (seq 0 (length counters)) i)) by (rewrite seq_length; lia). reflexivity.
  - inversion_clear H as [|? ? Hd Hr]. rewrite (pyget_nth counters d 0) by lia. rewrite (pyget_nth bounds d 0) by lia. cbn [bind]. destruct (IH (set_at counters d S)) as (P&E&H1&H2); [rewrite set_at_len; exact Hc|rewrite set_at_len; exact Hr|]. rewrite E. cbn [bind fst snd]. exists ((d, nth d counters 0) :: P). split; [|split].
    + cbn [map fst snd]. do 2 f_equal. rewrite set_at_len. apply map_ext. intros e. rewrite nth_set_at by lia. rewrite count_occ_cons'. destruct (Nat.eqb_spec e d) as [-> |Hn]; lia.
    + cbn [map fst]. now rewrite H1.
    + intros e. rewrite of_dataset_cons, H2, nth_set_at by lia. rewrite count_occ_cons', (Nat.eqb_sym d e). destruct (Nat.eqb_spec e d) as [-> |Hn]; reflexivity.
Qed.
Lemma count_ids corpus : forall d e, count_occ Nat.eq_dec (map fst (all_seqs_from d corpus)) e = if e <? d then 0 else length (nth (e - d) corpus []).
Proof.
  induction corpus as [|l r IH]; intros d e; cbn [all_seqs_from map].
  - destruct (e <? d); [reflexivity|]. now destruct (e - d).
  - rewrite map_app, count_occ_app, IH. rewrite map_map. cbn [fst].
    assert (Hc : count_occ Nat.eq_dec (map (fun _ => d) l) e = if e =? d then length l else 0). { clear. induction l as [|x l IH]; cbn [map]; [now destruct (e =? d)|]. rewrite count_occ_cons', IH. now destruct (e =? d). }
    rewrite Hc. destruct (Nat.eqb_spec e d) as [He|He]; destruct (Nat.ltb_spec e (S d)), (Nat.ltb_spec e d); try lia.
    + replace (e - d) with 0 by lia. cbn [nth]. lia.
    + replace (e - d) with (S (e - S d)) by lia. reflexivity.
Qed.
Lemma mapM_ids corpus n : n <= total corpus -> mapM (fun s => let* di := to_dataset_seq_idx (boundaries (map (@length nat) corpus)) s in Ok (fst di)) (seq 0 n) = Ok (firstn n (map fst (all_seqs corpus))).
Proof.
  intros Hn. rewrite (mapM_ok_map _ (fun s => fst (item corpus s))).
  2:{ intros s Hs. apply in_seq in Hs. destruct (to_ds_ok corpus s) as (d&j&l&c&->&_&_&E&_); [lia|]. cbn [bind fst]. unfold item. now rewrite (nth_error_nth2 _ _ _ _ E). }
  f_equal. apply nth_error_ext. intros i. rewrite nth_error_map, nth_error_firstn', nth_error_map. destruct (Nat.ltb_spec i n) as [Hi|Hi].
  - rewrite nth_error_seq by exact Hi. cbn. unfold item. rewrite (nth_error_nth' (all_seqs corpus) (0, 0)) by (unfold all_seqs; rewrite all_seqs_len; lia). reflexivity.
  - rewrite (proj2 (nth_error_None (seq 0 n) i)) by (rewrite seq_length; lia). reflexivity.
Qed.
Lemma map_nth_seq0 {A} (l : list A) z : map (fun i => nth i l z) (seq 0 (length l)) = l.
Proof.
  apply nth_error_ext. intros i. rewrite nth_error_map. destruct (Nat.ltb_spec i (length l)) as [Hi|Hi]; [rewrite nth_error_seq by exact Hi; cbn; symmetry; now apply nth_error_nth'|]. rewrite (proj2 (nth_error_None (seq 0 (length l)) i)) by (rewrite seq_length; lia). symmetry. now apply nth_error_None.
Qed.
Lemma of_dataset_map d P (f : nat -> nat -> nat) : of_dataset d (map (fun dc => (fst dc, f (fst dc) (snd dc))) P) = map (f d) (of_dataset d P).
Proof. unfold of_dataset. induction P as [|[e c] P IH]; [reflexivity|]. cbn. destruct (Nat.eqb_spec e d) as [-> |]; cbn; [f_equal|]; exact IH. Qed.
Lemma In_of_dataset d c P : In (d, c) P <-> In c (of_dataset d P).
Proof.
  unfold of_dataset. rewrite in_map_iff. split.
  - intros H. exists (d, c). split; [reflexivity|]. apply filter_In. split; [exact H|apply Nat.eqb_refl].
  - intros ([e c']&<-&H). apply filter_In in H. destruct H as (H&E). cbn in *. apply Nat.eqb_eq in E. now subst.
Qed.
Lemma random_dataset_spec shuffle corpus : (forall l, Permutation (shuffle l) l) -> exists order,
  (forall part epoch shards shard rep, random_dataset_order shuffle (map (@length nat) corpus) part epoch shards shard rep = let* o := apply_partition_epoch_and_sharding order part (Some epoch) shards shard in Ok (concat (repeat o rep))) /\
  Permutation order (seq 0 (total corpus)) /\ forall d, d < length corpus -> of_dataset d (map (item corpus) order) = nth d corpus [].
Proof.
  intros Hs. set (ids := map fst (all_seqs corpus)). pose proof (Hs ids) as Hp.
  assert (Hlt : Forall (fun d => d < length corpus) ids). { unfold ids, all_seqs. apply Forall_forall. intros d Hd. assert (forall e, In d (map fst (all_seqs_from e corpus)) -> d < e + length corpus) as X; [|specialize (X 0 Hd); lia]. clear. induction corpus as [|l r IH]; intros e Hd; [contradiction|]. cbn [all_seqs_from map length] in *. rewrite map_app, in_app_iff in Hd. destruct Hd as [Hd|Hd]; [rewrite map_map in Hd; apply in_map_iff in Hd; destruct Hd as (?&<-&_); cbn; lia|]. apply IH in Hd. lia. }
  assert (Hcnt : forall e, count_occ Nat.eq_dec (shuffle ids) e = length (nth e corpus [])). { intros e. rewrite (proj1 (Permutation_count_occ Nat.eq_dec _ _) Hp). unfold ids, all_seqs. rewrite count_ids. cbn. now rewrite Nat.sub_0_r. }
  destruct (count_up_spec (boundaries (map (@length nat) corpus)) (shuffle ids) (repeat 0 (length corpus))) as (P&E&H1&H2).
  { rewrite bounds_len, repeat_length, map_length. lia. }
  { rewrite repeat_length. eapply Permutation_Forall; [apply Permutation_sym, Hp|exact Hlt]. }
  assert (Hrep : forall d, nth d (repeat 0 (length corpus)) 0 = 0) by (intros d; generalize (length corpus); revert d; induction d as [|d IHd]; intros [|n]; cbn; auto).
  assert (HP : forall d, of_dataset d P = seq 0 (length (nth d corpus []))) by (intros d; rewrite H2, Hrep, Hcnt; reflexivity).
  set (order := map (fun dc => snd dc + nth (fst dc) (boundaries (map (@length nat) corpus)) 0) P) in *.
  assert (Hlenorder : length order = total corpus). { unfold order. rewrite map_length, <- (map_length fst P), H1, (Permutation_length Hp). unfold ids, all_seqs. now rewrite map_length, all_seqs_len. }
  assert (Hitem : forall d c, In (d, c) P -> exists l, nth_error corpus d = Some l /\ c < length l /\ c + nth d (boundaries (map (@length nat) corpus)) 0 = list_sum (map (@length nat) (firstn d corpus)) + c).
  { intros d c Hi. apply In_of_dataset in Hi. rewrite HP in Hi. apply in_seq in Hi. assert (Hd : d < length corpus) by (destruct (Nat.ltb_spec d (length corpus)); [assumption|rewrite nth_overflow in Hi by lia; cbn in Hi; lia]). exists (nth d corpus []). split; [now apply nth_error_nth'|]. split; [lia|]. rewrite boundaries_eq, bnds_nth by (rewrite map_length; lia). rewrite firstn_map. lia. }
  exists order. split; [|split].
  - intros part epoch shards shard rep. unfold random_dataset_order. fold (total corpus). rewrite mapM_ids by lia. cbn [bind]. rewrite firstn_all2 by (unfold all_seqs; rewrite map_length, all_seqs_len; lia). fold ids. rewrite map_length. rewrite E. cbn [bind fst snd].
    match goal with |- context [assert_ (?a =? ?b)] => assert (Hab : a = b) end. { rewrite repeat_length. unfold total. rewrite <- (map_nth_seq0 corpus []) at 2. rewrite map_map. f_equal. apply map_ext. intros d. now rewrite Hrep, Hcnt. } rewrite Hab, Nat.eqb_refl. reflexivity.
  - apply Permutation_sym, NoDup_Permutation_bis; [apply seq_NoDup|rewrite seq_length; lia|]. intros s Hi. apply in_seq in Hi. destruct (to_ds_ok corpus s) as (d&j&l&c&_&E2&E3&_&E5); [lia|]. assert (Hj : In (d, j) P). { apply In_of_dataset. rewrite HP. apply in_seq. rewrite (nth_error_nth2 _ _ _ [] E2). assert (j < length l) by (apply nth_error_Some; congruence). lia. } apply in_map_iff. exists (d, j). split; [|exact Hj]. cbn [fst snd]. destruct (Hitem d j Hj) as (_&_&_&->). now rewrite E5.
  - intros d Hd. unfold order. rewrite map_map. erewrite map_ext_in.
    2:{ intros [e c] Hi. cbn [fst snd]. destruct (Hitem e c Hi) as (l&El&Hc&Es). rewrite Es. destruct (nth_error l c) as [x|] eqn:Ex; [|apply nth_error_None in Ex; lia]. destruct (to_ds_conv corpus e c l x El Ex) as (_&Ec). unfold item. rewrite (nth_error_nth2 _ _ _ _ Ec). rewrite <- (nth_error_nth2 _ _ _ 0 Ex), <- (nth_error_nth2 _ _ _ [] El). instantiate (1 := fun dc => (fst dc, nth (snd dc) (nth (fst dc) corpus []) 0)). reflexivity. }
    rewrite (of_dataset_map d P (fun e c => nth c (nth e corpus []) 0)), HP. apply map_nth_seq0.
Qed.

(** ** sampling *)
Lemma map_mod_seq a n size : 0 < n -> map (fun i => i mod n) (seq (a mod n) size) = map (fun i => i mod n) (seq a size).
Proof.
  intros Hn. apply nth_error_ext. intros i. rewrite !nth_error_map. destruct (Nat.ltb_spec i size) as [Hi|Hi].
  - rewrite !nth_error_seq by exact Hi. cbn. f_equal. now rewrite Nat.add_mod_idemp_l by lia.
  - rewrite !(proj2 (nth_error_None (seq _ size) i)) by (rewrite seq_length; lia). reflexivity.
Qed.
Lemma sample_range_eq epoch size n : 0 < n -> sample_range epoch size n = Ok (map (fun i => i mod n) (seq ((epoch - 1) * size) size)).
Proof. intros Hn. unfold sample_range. destruct (Nat.eqb_spec n 0); [lia|]. now rewrite map_mod_seq. Qed.
Lemma sampling_cyclic size n E : 0 < n -> exists ls, mapM (fun e => sample_range e size n) (seq 1 E) = Ok ls /\ concat ls = map (fun i => i mod n) (seq 0 (E * size)).
Proof.
  intros Hn. exists (map (fun e => map (fun i => i mod n) (seq ((e - 1) * size) size)) (seq 1 E)). split.
  - apply mapM_ok_map. intros e _. now apply sample_range_eq.
  - induction E as [|E IH]; [reflexivity|]. rewrite seq_S, map_app, concat_app, IH. cbn [map concat]. rewrite app_nil_r. cbn [Nat.add Nat.sub]. rewrite Nat.sub_0_r. replace (S E * size) with (E * size + size) by lia. rewrite seq_app, map_app. reflexivity.
Qed.
Lemma sample_ranges_ok sampling epoch ds : Forall (fun kn => 0 < snd kn /\ dhas sampling (fst kn) = true) ds -> forall start, sample_ranges sampling epoch ds start = Ok (expected_samples sampling epoch ds start).
Proof.
  induction 1 as [|[key n] ds [Hn Hk] _ IH]; intros start; cbn [sample_ranges expected_samples fst snd] in *; [reflexivity|]. unfold dhas in Hk. destruct (dget sampling key) as [size|]; [|discriminate]. rewrite sample_range_eq by exact Hn. cbn [bind]. rewrite IH. cbn [bind]. now rewrite map_map.
Qed.
Lemma expected_len sampling epoch ds : forall start, length (expected_samples sampling epoch ds start) = list_sum (map (fun kn => match dget sampling (fst kn) with Some s => s | None => 0 end) ds).
Proof. induction ds as [|[k n] ds IH]; intros start; [reflexivity|]. cbn. rewrite app_length, map_length, seq_length, IH. reflexivity. Qed.
Lemma list_sum_perm l l' : Permutation l l' -> list_sum l = list_sum l'.
Proof. induction 1; cbn; unfold list_sum in *; lia. Qed.
Lemma dvals_eq (sampling : dict string nat) : dict_ok sampling -> dvals sampling = map (fun k => match dget sampling k with Some s => s | None => 0 end) (dkeys sampling).
Proof.
  unfold dict_ok, dkeys, dvals. intros H. rewrite map_map. apply map_ext_in. intros [k v] Hi. cbn [fst snd]. rewrite (In_dget sampling k v H Hi). reflexivity.
Qed.
Lemma sample_buffer_ok sampling epoch ds : dict_ok sampling -> Permutation (map fst ds) (dkeys sampling) -> Forall (fun kn => 0 < snd kn) ds -> sample_buffer sampling epoch ds = Ok (expected_samples sampling epoch ds 0).
Proof.
  intros Hok Hp Hn. unfold sample_buffer. rewrite sample_ranges_ok.
  - cbn [bind]. rewrite dvals_eq by exact Hok. rewrite <- (list_sum_perm _ _ (Permutation_map _ Hp)), map_map. rewrite expected_len, Nat.sub_diag. cbn [repeat]. now rewrite app_nil_r.
  - rewrite Forall_forall in *. intros [k n] Hi. split; [now apply (Hn (k, n))|]. cbn [fst]. unfold dhas. assert (Hk : In k (dkeys sampling)) by (eapply Permutation_in; [exact Hp|]; apply in_map_iff; exists (k, n); auto). unfold dkeys in Hk. apply in_map_iff in Hk. destruct Hk as ([k' v]&E&Hk). cbn in E. subst k'. now rewrite (In_dget sampling k v Hok Hk).
Qed.
Lemma take_perm (buf r : list nat) : Permutation r (seq 0 (length buf)) -> exists o, mapM (fun i => pyget buf i) r = Ok o /\ Permutation o buf.
Proof.
  intros H. exists (map (fun i => nth i buf 0) r). split.
  - apply mapM_ok_map. intros i Hi. apply pyget_nth. apply (Permutation_in _ H) in Hi. apply in_seq in Hi. lia.
  - eapply Permutation_trans; [apply Permutation_map, H|]. now rewrite map_nth_seq0.
Qed.

(** ** unknown numbers of sequences *)
Lemma list_ext0 (l l' : list nat) : length l = length l' -> (forall d, d < length l -> nth d l 0 = nth d l' 0) -> l = l'.
Proof. revert l'. induction l as [|x l IH]; intros [|y l'] H1 H2; try discriminate; [reflexivity|]. f_equal; [apply (H2 0); cbn; lia|]. apply IH; [cbn in H1; lia|]. intros d Hd. apply (H2 (S d)). cbn; lia. Qed.
Section Expand.
  Context {G : Type} (choice_p : G -> list Z -> nat * G) (choice_list : G -> list nat -> nat * G).
  Variable sizes : list nat.
  Let m := length sizes.
  Definition inv (st : state (G := G)) : Prop :=
    length (used st) = m /\ length (est st) = m /\ (forall d, nth d (used st) 0%nat <= nth d sizes 0%nat) /\ (forall d, of_dataset d (tbl st) = seq 0 (nth d (used st) 0%nat)).
  Definition est_ok (st : state (G := G)) : Prop := forall d, (Z.of_nat (nth d (used st) 0%nat) <= nth d (est st) 0)%Z.
  Definition sumrem (st : state (G := G)) : Z := fold_right Z.add 0%Z (remaining st).

  Lemma has_more_lt us d : length us = m -> has_more sizes us d = true -> d < m.
  Proof. unfold has_more. intros H Hd. apply Nat.ltb_lt in Hd. destruct (Nat.ltb_spec d m); [assumption|]. unfold m in *. rewrite (nth_overflow sizes) in Hd by lia. lia. Qed.
  Lemma none_more us : length us = m -> (forall d, nth d us 0%nat <= nth d sizes 0%nat) -> (forall d, d < m -> has_more sizes us d = false) -> us = sizes.
  Proof. intros H1 H2 H3. apply list_ext0; [exact H1|]. intros d Hd. specialize (H2 d). specialize (H3 d ltac:(lia)). unfold has_more in H3. apply Nat.ltb_ge in H3. lia. Qed.
  Lemma inv_add st d : inv st -> has_more sizes (used st) d = true -> inv (St (set_at (used st) d S) (est st) (tbl st ++ [(d, nth d (used st) 0%nat)]) (gen st)).
  Proof.
    intros (H1&H2&H3&H4) Hd. pose proof (has_more_lt _ _ H1 Hd) as Hm. unfold has_more in Hd. apply Nat.ltb_lt in Hd. unfold inv. cbn [used est tbl]. rewrite set_at_len. split; [exact H1|]. split; [exact H2|]. split; intros e.
    - rewrite nth_set_at by lia. destruct (Nat.eqb_spec e d) as [-> |]; [lia|apply H3].
    - rewrite of_dataset_app, H4, nth_set_at by lia. rewrite of_dataset_cons. change (of_dataset e []) with (@nil nat). rewrite (Nat.eqb_sym d e). destruct (Nat.eqb_spec e d) as [-> |]; [rewrite seq_S; reflexivity|now rewrite app_nil_r].
  Qed.
  Lemma rem_nth st d : inv st -> nth d (remaining st) 0%Z = (nth d (est st) 0 - Z.of_nat (nth d (used st) 0%nat))%Z.
  Proof.
    intros (H1&H2&_&_). unfold remaining. destruct (Nat.ltb_spec d m) as [Hd|Hd].
    - erewrite nth_error_nth2; [reflexivity|]. rewrite nth_error_map. assert (E : nth_error (combine (est st) (used st)) d = Some (nth d (est st) 0%Z, nth d (used st) 0%nat)). { rewrite <- combine_nth by lia. apply nth_error_nth'. rewrite combine_length. lia. } rewrite E. reflexivity.
    - rewrite !nth_overflow; [reflexivity|lia|lia|rewrite map_length, combine_length; lia].
  Qed.
  Lemma sumZ_set l : forall d f, d < length l -> fold_right Z.add 0%Z (set_at l d f) = (fold_right Z.add 0 l + f (nth d l 0) - nth d l 0)%Z.
  Proof. induction l as [|x l IH]; intros [|d] f H; cbn in *; try lia. rewrite IH by lia. lia. Qed.
  Lemma rem_set d (f : Z -> Z) us es : length us = length es -> d < length es -> map (fun eu : Z * nat => (fst eu - Z.of_nat (snd eu))%Z) (combine (set_at es d f) us) = set_at (map (fun eu : Z * nat => (fst eu - Z.of_nat (snd eu))%Z) (combine es us)) d (fun _ => (f (nth d es 0) - Z.of_nat (nth d us 0%nat))%Z).
  Proof. clear. revert d us. induction es as [|e es IH]; intros [|d] [|u us] H1 H2; cbn in *; try lia; [reflexivity|]. f_equal. apply IH; lia. Qed.
  Lemma rem_used d us es : length us = length es -> d < length es -> map (fun eu : Z * nat => (fst eu - Z.of_nat (snd eu))%Z) (combine es (set_at us d S)) = set_at (map (fun eu : Z * nat => (fst eu - Z.of_nat (snd eu))%Z) (combine es us)) d (fun r => (r - 1)%Z).
  Proof. clear. revert d us. induction es as [|e es IH]; intros [|d] [|u us] H1 H2; cbn in *; try lia; [f_equal; lia|]. f_equal. apply IH; lia. Qed.
  Lemma sum_pos l : (forall i, 0 <= nth i l 0)%Z -> (0 < fold_right Z.add 0 l)%Z -> exists i, (0 < nth i l 0)%Z.
  Proof. clear. induction l as [|x l IH]; intros H1 H2; cbn in *; [lia|]. destruct (Z.ltb_spec 0 x); [exists 0; assumption|]. specialize (H1 0) as H0. cbn in H0. destruct IH as (i&Hi); [intros i; apply (H1 (S i))|lia|]. now exists (S i). Qed.

  Hypothesis Hch : choices_ok choice_p choice_list.
  Lemma pick_random_spec fuel : forall st, inv st -> est_ok st -> (sumrem st < Z.of_nat fuel)%Z -> exists o st', pick_random choice_p choice_list sizes fuel st = Ok (o, st') /\ inv st' /\ used st' = used st /\ tbl st' = tbl st /\ match o with
    | None => used st = sizes /\ est_ok st' /\ (sumrem st' <= sumrem st)%Z
    | Some d => has_more sizes (used st) d = true /\ (forall e, (Z.of_nat (nth e (used st) 0%nat) + (if (e =? d)%nat then 1 else 0) <= nth e (est st') 0)%Z) /\ (sumrem st' <= Z.max 1 (sumrem st))%Z
    end.
  Proof.
    destruct Hch as (Hcp&Hcl). induction fuel as [|fuel IH]; intros st Hi He Hf.
    { exfalso. assert (0 <= sumrem st)%Z; [|lia]. unfold sumrem. assert (forall i, 0 <= nth i (remaining st) 0)%Z as Hn by (intros i; rewrite rem_nth by exact Hi; specialize (He i); lia). revert Hn. generalize (remaining st). clear. induction l as [|x l IH]; intros H; cbn; [lia|]. specialize (H 0) as H0. cbn in H0. specialize (IH (fun i => H (S i))). lia. }
    cbn [pick_random]. fold (sumrem st). assert (Hn : forall i, (0 <= nth i (remaining st) 0)%Z) by (intros i; rewrite rem_nth by exact Hi; specialize (He i); lia). pose proof Hi as (H1&H2&H3&H4). destruct (Z.leb_spec (sumrem st) 0) as [Hs|Hs].
    - destruct (filter (has_more sizes (used st)) (seq 0 (num_ds sizes))) as [|x ne] eqn:E.
      + exists None, st. split; [reflexivity|]. split; [exact Hi|]. split; [reflexivity|]. split; [reflexivity|]. split; [|split; [exact He|lia]]. apply none_more; [exact H1|exact H3|]. intros d Hd. destruct (has_more sizes (used st) d) eqn:Ed; [|reflexivity]. exfalso. assert (In d []); [|contradiction]. rewrite <- E. apply filter_In. split; [apply in_seq; unfold num_ds; fold m; lia|exact Ed].
      + specialize (Hcl (gen st) (x :: ne) ltac:(discriminate)). destruct (choice_list (gen st) (x :: ne)) as [d g]. cbn [fst] in Hcl. rewrite <- E in Hcl. apply filter_In in Hcl. destruct Hcl as (_&Hd). pose proof (has_more_lt _ _ H1 Hd) as Hm. eexists _, _. split; [reflexivity|]. cbn [used tbl est]. split; [unfold inv; cbn [used est tbl]; rewrite set_at_len; auto|]. split; [reflexivity|]. split; [reflexivity|]. split; [exact Hd|]. split.
        * intros e. rewrite nth_set_at by lia. specialize (He e). destruct (Nat.eqb_spec e d) as [-> |]; lia.
        * unfold sumrem, remaining. cbn [est used]. rewrite rem_set by lia. rewrite sumZ_set by (rewrite map_length, combine_length; lia). fold (remaining st). fold (sumrem st). rewrite rem_nth by exact Hi. lia.
    - destruct (existsb (fun r => (r <? 0)%Z) (remaining st)) eqn:Ex. { exfalso. apply existsb_exists in Ex. destruct Ex as (r&Hr&Hlt). apply Z.ltb_lt in Hlt. destruct (In_nth _ _ 0%Z Hr) as (i&_&Ei). specialize (Hn i). lia. }
      specialize (Hcp (gen st) (remaining st) (sum_pos _ Hn Hs)). destruct (choice_p (gen st) (remaining st)) as [d g]. cbn [fst] in Hcp. assert (Hm : d < m). { destruct (Nat.ltb_spec d m); [assumption|]. rewrite nth_overflow in Hcp by (unfold remaining; rewrite map_length, combine_length; lia). lia. } rewrite rem_nth in Hcp by exact Hi. destruct (has_more sizes (used st) d) eqn:Ed.
      + eexists _, _. split; [reflexivity|]. cbn [used tbl est]. split; [exact Hi|]. split; [reflexivity|]. split; [reflexivity|]. split; [exact Ed|]. split; [intros e; specialize (He e); destruct (Nat.eqb_spec e d) as [-> |]; lia|]. unfold sumrem, remaining. cbn [est used]. fold (remaining st). fold (sumrem st). lia.
      + set (st2 := St (used st) (set_at (est st) d (fun _ => Z.of_nat (nth d (used st) 0%nat))) (tbl st) g). assert (Hs2 : (sumrem st2 < sumrem st)%Z). { unfold sumrem at 1, remaining. unfold st2. cbn [est used]. rewrite rem_set by lia. rewrite sumZ_set by (rewrite map_length, combine_length; lia). fold (remaining st). fold (sumrem st). rewrite rem_nth by exact Hi. lia. }
        destruct (IH st2) as (o&st'&E&I1&I2&I3&I4). { unfold inv, st2. cbn [used est tbl]. rewrite set_at_len. auto. } { intros e. unfold st2. cbn [used est]. rewrite nth_set_at by lia. specialize (He e). destruct (Nat.eqb_spec e d) as [-> |]; cbn beta; lia. } { lia. }
        exists o, st'. split; [exact E|]. split; [exact I1|]. split; [exact I2|]. split; [exact I3|]. change (used st2) with (used st) in I4. destruct o as [d'|].
        * destruct I4 as (J1&J2&J3). split; [exact J1|]. split; [exact J2|]. lia.
        * destruct I4 as (J1&J2&J3). split; [exact J1|]. split; [exact J2|]. lia.
  Qed.
  Definition known_ordering (o : string) : Prop := o = "default"%string \/ o = "reversed"%string \/ o = "random_dataset"%string.
  Lemma pick_spec o fuel st : known_ordering o -> inv st -> est_ok st \/ o <> "random_dataset"%string -> (sumrem st < Z.of_nat fuel)%Z \/ o <> "random_dataset"%string -> exists r st', pick choice_p choice_list sizes o fuel st = Ok (r, st') /\ inv st' /\ used st' = used st /\ tbl st' = tbl st /\
    match r with
    | None => used st = sizes /\ (o = "random_dataset"%string -> est_ok st' /\ (sumrem st' <= sumrem st)%Z)
    | Some d => has_more sizes (used st) d = true /\ (o = "random_dataset"%string -> (forall e, (Z.of_nat (nth e (used st) 0%nat) + (if (e =? d)%nat then 1 else 0) <= nth e (est st') 0)%Z) /\ (sumrem st' <= Z.max 1 (sumrem st))%Z) /\ (o = "default"%string -> forall d', d' < d -> has_more sizes (used st) d' = false)
    end.
  Proof.
    intros Ho Hi He Hf. pose proof Hi as (H1&H2&H3&H4). unfold pick. destruct Ho as [-> |[-> | ->]]; cbn [String.eqb Ascii.eqb Bool.eqb].
    - unfold first_with_more. destruct (find (has_more sizes (used st)) (seq 0 (num_ds sizes))) as [d|] eqn:E; eexists _, st; (split; [reflexivity|]); split; [exact Hi| |exact Hi|]; (split; [reflexivity|]); (split; [reflexivity|]).
      + pose proof (find_some _ _ E) as (Hd&Hm). split; [exact Hm|]. split; [discriminate|]. intros _ d' Hd'. clear - E Hd' Hd. apply in_seq in Hd. assert (X : forall n a, find (has_more sizes (used st)) (seq a n) = Some d -> a <= d' -> has_more sizes (used st) d' = false); [|exact (X _ _ E (Nat.le_0_l _))]. induction n as [|n IH]; intros a Ef Ha; [discriminate|]. cbn [seq find] in Ef. destruct (has_more sizes (used st) a) eqn:Ea; [injection Ef as ->; lia|]. destruct (Nat.eq_dec a d') as [<-|]; [exact Ea|]. apply (IH (S a)); [exact Ef|lia].
      + split; [|discriminate]. apply none_more; [exact H1|exact H3|]. intros d Hd. apply (find_none _ _ E). apply in_seq. unfold num_ds. fold m. lia.
    - unfold last_with_more. destruct (find (has_more sizes (used st)) (rev (seq 0 (num_ds sizes)))) as [d|] eqn:E; eexists _, st; (split; [reflexivity|]); split; [exact Hi| |exact Hi|]; (split; [reflexivity|]); (split; [reflexivity|]).
      + pose proof (find_some _ _ E) as (Hd&Hm). split; [exact Hm|]. split; discriminate.
      + split; [|discriminate]. apply none_more; [exact H1|exact H3|]. intros d Hd. apply (find_none _ _ E). apply -> in_rev. apply in_seq. unfold num_ds. fold m. lia.
    - destruct He as [He|He]; [|contradiction]. destruct Hf as [Hf|Hf]; [|contradiction]. destruct (pick_random_spec fuel st Hi He Hf) as (r&st'&E&I1&I2&I3&I4). exists r, st'. split; [exact E|]. split; [exact I1|]. split; [exact I2|]. split; [exact I3|]. destruct r as [d|].
      + destruct I4 as (J1&J2&J3). split; [exact J1|]. split; [intros _; split; assumption|discriminate].
      + destruct I4 as (J1&J2&J3). split; [exact J1|]. intros _. split; assumption.
  Qed.
  Lemma expand_spec o fuel n : known_ordering o -> forall st, inv st -> est_ok st \/ o <> "random_dataset"%string -> (Z.max 0 (sumrem st) < Z.of_nat fuel)%Z \/ o <> "random_dataset"%string ->
    exists b st' ext, expand choice_p choice_list sizes o fuel n st = Ok (b, st') /\ inv st' /\ tbl st' = tbl st ++ ext /\ (est_ok st' \/ o <> "random_dataset"%string) /\ ((Z.max 0 (sumrem st') < Z.of_nat fuel)%Z \/ o <> "random_dataset"%string) /\
      (b = true -> length ext = n) /\ (b = false -> used st' = sizes /\ length ext < n).
  Proof.
    intros Ho. induction n as [|n IH]; intros st Hi He Hf; cbn [expand].
    { exists true, st, []. split; [reflexivity|]. split; [exact Hi|]. split; [now rewrite app_nil_r|]. split; [exact He|]. split; [exact Hf|]. split; [reflexivity|discriminate]. }
    destruct (pick_spec o fuel st Ho Hi He) as (r&st1&E&I1&I2&I3&I4). { destruct Hf; [left; lia|now right]. } rewrite E. cbn [bind]. destruct r as [d|].
    - destruct I4 as (J1&J2&_). rewrite <- I2 in J1. pose proof (inv_add st1 d I1 J1) as Hi2. set (st2 := St (set_at (used st1) d S) (est st1) (tbl st1 ++ [(d, nth d (used st1) 0%nat)]) (gen st1)) in *.
      pose proof I1 as (A1&A2&_&_). pose proof (has_more_lt _ _ A1 J1) as Hm.
      destruct (IH st2 Hi2) as (b&st'&ext&E2&K1&K2&K3&K4&K5&K6).
      { destruct (string_dec o "random_dataset") as [Hr|Hr]; [left|now right]. destruct (J2 Hr) as (J3&_). intros e. unfold st2. cbn [used est]. rewrite nth_set_at by lia. specialize (J3 e). rewrite I2. destruct (Nat.eqb_spec e d) as [Hed|]; [rewrite Hed in J3 |- *|]; lia. }
      { destruct (string_dec o "random_dataset") as [Hr|Hr]; [left|now right]. destruct (J2 Hr) as (J3&J4). destruct Hf as [Hf|Hf]; [|contradiction]. assert (sumrem st2 = sumrem st1 - 1)%Z; [|lia]. unfold sumrem, remaining, st2. cbn [used est]. rewrite rem_used by lia. rewrite sumZ_set by (rewrite map_length, combine_length; lia). lia. }
      rewrite E2. exists b, st', ((d, nth d (used st1) 0%nat) :: ext). split; [reflexivity|]. split; [exact K1|]. split; [rewrite K2; unfold st2; cbn [tbl]; rewrite I3, <- app_assoc; reflexivity|]. split; [exact K3|]. split; [exact K4|]. split; [intros Hb; cbn; rewrite (K5 Hb); reflexivity|]. intros Hb. destruct (K6 Hb) as (L1&L2). split; [exact L1|cbn; lia].
    - destruct I4 as (J1&J2). exists false, st1, []. split; [reflexivity|]. split; [exact I1|]. split; [now rewrite app_nil_r, I3|]. split; [|split; [|split; [discriminate|intros _; split; [congruence|cbn; lia]]]].
      + destruct (string_dec o "random_dataset") as [Hr|Hr]; [left; apply J2; exact Hr|now right].
      + destruct (string_dec o "random_dataset") as [Hr|Hr]; [left|now right]. destruct (J2 Hr) as (_&J3). destruct Hf as [Hf|Hf]; [lia|contradiction].
  Qed.
  (** default: dataset after dataset *)
  Definition in_order (st : state (G := G)) : Prop := StronglySorted (fun a b => fst a <= fst b) (tbl st) /\ forall d j d', In (d, j) (tbl st) -> d' < d -> has_more sizes (used st) d' = false.
  Lemma sorted_snoc {A} (R : A -> A -> Prop) l x : StronglySorted R l -> Forall (fun y => R y x) l -> StronglySorted R (l ++ [x]).
  Proof. clear. induction 1 as [|a l Hs IH Hf]; intros Hx; cbn; [repeat constructor|]. inversion_clear Hx. constructor; [now apply IH|]. apply Forall_app. split; [exact Hf|repeat constructor; assumption]. Qed.
  Lemma expand_default fuel n : forall st, inv st -> in_order st -> exists b st', expand choice_p choice_list sizes "default" fuel n st = Ok (b, st') /\ in_order st'.
  Proof.
    induction n as [|n IH]; intros st Hi Ho; cbn [expand]; [eauto|]. pose proof Hi as (H1&H2&H3&H4). destruct (pick_spec "default" fuel st (or_introl eq_refl) Hi) as (r&st1&E&I1&I2&I3&I4); [right; discriminate|right; discriminate|]. rewrite E. cbn [bind]. destruct Ho as (Hs&Hm). destruct r as [d|]; [|exists false, st1; split; [reflexivity|]; split; [now rewrite I3|rewrite I2, I3; exact Hm]].
    destruct I4 as (J1&_&J2). specialize (J2 eq_refl). rewrite <- I2 in J1. apply IH; [now apply inv_add|]. pose proof I1 as (A1&_). pose proof (has_more_lt _ _ A1 J1) as Hdm. split; cbn [used tbl].
    - rewrite I3. apply sorted_snoc; [exact Hs|]. apply Forall_forall. intros [e j] He. cbn. destruct (Nat.leb_spec e d); [assumption|]. exfalso. rewrite I2 in J1. rewrite (Hm e j d He) in J1 by lia. discriminate.
    - intros e j d' He Hd'. assert (Hno : has_more sizes (used st) d' = false). { rewrite I3 in He. apply in_app_iff in He. destruct He as [He|[He|[]]]; [exact (Hm e j d' He Hd')|]. injection He as <- _. now apply J2. } assert (d' <> d) by (intros ->; rewrite I2 in J1; congruence). unfold has_more in *. rewrite nth_set_at by lia. destruct (Nat.eqb_spec d' d); [contradiction|]. now rewrite I2.
  Qed.
  Lemma sorted_unique t : StronglySorted (fun a b => fst a <= fst b) t -> forall d (corpus : list (list nat)), Forall (fun s => d <= fst s < d + length corpus) t -> (forall e, d <= e -> of_dataset e t = nth (e - d) corpus []) -> t = all_seqs_from d corpus.
  Proof.
    clear. intros Hs d corpus. revert t Hs d. induction corpus as [|l r IH]; intros t Hs d Hb Hd; cbn [all_seqs_from].
    - destruct t as [|x t]; [reflexivity|]. inversion Hb; subst. cbn in *. lia.
    - assert (X : exists t1 t2, t = t1 ++ t2 /\ Forall (fun s => fst s = d) t1 /\ Forall (fun s => d < fst s) t2 /\ StronglySorted (fun a b => fst a <= fst b) t2).
      { clear - Hs Hb. induction Hs as [|x t Hs IH Hf]; [exists [], []; repeat split; constructor|]. inversion_clear Hb as [|? ? Hx Ht]. destruct (Nat.eq_dec (fst x) d) as [E|E].
        - destruct (IH Ht) as (t1&t2&->&A&B&C). exists (x :: t1), t2. split; [reflexivity|]. split; [now constructor|]. split; assumption.
        - exists [], (x :: t). split; [reflexivity|]. split; [constructor|]. split; [|now constructor]. constructor; [lia|]. eapply Forall_impl; [|exact Hf]. cbn. intros; lia. }
      destruct X as (t1&t2&->&A&B&C). apply Forall_app in Hb. destruct Hb as (_&Hb2).
      assert (Ht1 : t1 = map (pair d) l). { specialize (Hd d (Nat.le_refl d)). rewrite Nat.sub_diag in Hd. cbn [nth] in Hd. rewrite of_dataset_app in Hd. assert (E2 : of_dataset d t2 = []). { clear - B. induction B as [|[e c] t2 H _ IH]; [reflexivity|]. rewrite of_dataset_cons. cbn in H. destruct (Nat.eqb_spec e d); [lia|exact IH]. } rewrite E2, app_nil_r in Hd. rewrite <- Hd. clear - A. induction A as [|[e c] t1 H _ IH]; [reflexivity|]. cbn in H. subst e. rewrite of_dataset_cons, Nat.eqb_refl. cbn. now rewrite <- IH. }
      rewrite Ht1. f_equal. apply IH; [exact C| |].
      + rewrite Forall_forall in *. intros x Hx. specialize (Hb2 x Hx). specialize (B x Hx). cbn [length] in Hb2. lia.
      + intros e He. specialize (Hd e ltac:(lia)). rewrite of_dataset_app in Hd. replace (e - d) with (S (e - S d)) in Hd by lia. cbn [nth] in Hd. rewrite <- Hd. assert (E1 : of_dataset e t1 = []). { clear - A He. induction A as [|[a c] t1 H _ IH]; [reflexivity|]. rewrite of_dataset_cons. cbn in H. destruct (Nat.eqb_spec a e); [lia|exact IH]. } now rewrite E1.
  Qed.
  Lemma default_all st : inv st -> in_order st -> used st = sizes -> tbl st = all_seqs (map (seq 0) sizes).
  Proof.
    intros (H1&H2&H3&H4) (Hs&_) Hu. apply sorted_unique; [exact Hs| |].
    - apply Forall_forall. intros [e j] Hi. cbn. rewrite map_length. split; [lia|]. fold m. destruct (Nat.ltb_spec e m); [assumption|]. exfalso. apply In_of_dataset in Hi. rewrite H4, Hu, nth_overflow in Hi by (fold m; lia). exact Hi.
    - intros e _. rewrite H4, Hu, Nat.sub_0_r. change (@nil nat) with (seq 0 0). now rewrite map_nth.
  Qed.
End Expand.

(** ** data keys *)
Local Open Scope string_scope.
Lemma lookup_fold (data_map : list ((string * string) * string)) dk key : forall t, (forall sub, In ((dk, sub), key) data_map -> dget t key = Some sub \/ True) ->
  dget (fold_left (fun t e => if String.eqb (fst (fst e)) dk then dset t (snd e) (snd (fst e)) else t) data_map t) key =
  match find (fun e => String.eqb (fst (fst e)) dk && String.eqb (snd e) key) (rev data_map) with Some e => Some (snd (fst e)) | None => dget t key end.
Proof.
  intros t _. revert t. induction data_map as [|[[d s] k] l IH] using rev_ind; intros t; [reflexivity|]. rewrite fold_left_app, rev_app_distr. cbn [fold_left rev app find fst snd]. destruct (String.eqb_spec d dk) as [-> |]; cbn [andb]; [|apply IH]. rewrite dget_dset. cbn [keqb EqB_string]. destruct (String.eqb_spec k key); [reflexivity|apply IH].
Qed.
Lemma get_data_some {X} data_map dk (get : string -> list X) sub key : In ((dk, sub), key) data_map -> (forall sub', In ((dk, sub'), key) data_map -> sub' = sub) -> get_data data_map dk get key = get sub.
Proof.
  intros Hi Hu. unfold get_data, lookup_table. rewrite lookup_fold by auto. destruct (find _ (rev data_map)) as [[[d s] k]|] eqn:E.
  - apply find_some in E. destruct E as (H1&H2). cbn [fst snd] in *. apply andb_prop in H2. destruct H2 as (A&B). apply String.eqb_eq in A, B. subst. apply in_rev in H1. now rewrite (Hu s H1).
  - exfalso. pose proof (find_none _ _ E ((dk, sub), key)) as H. cbn [fst snd] in H. rewrite !String.eqb_refl in H. discriminate H. apply -> in_rev. exact Hi.
Qed.
Lemma get_data_none {X} data_map dk (get : string -> list X) key : (forall sub, ~ In ((dk, sub), key) data_map) -> get_data data_map dk get key = [].
Proof.
  intros Hu. unfold get_data, lookup_table. rewrite lookup_fold by auto. destruct (find _ (rev data_map)) as [[[d s] k]|] eqn:E; [|reflexivity]. apply find_some in E. destruct E as (H1&H2). cbn [fst snd] in *. apply andb_prop in H2. destruct H2 as (A&B). apply String.eqb_eq in A, B. subst. apply in_rev in H1. now apply Hu in H1.
Qed.
