From Coq Require Import Permutation Lia.
From Verif Require Import Base SpecAugModel SpecAugSpec.

Lemma mapi_nth {A B} (f : nat -> A -> B) : forall l i, nth_error (mapi f l) i = option_map (f i) (nth_error l i).
Proof.
  intros l. unfold mapi.
  enough (H : forall k i, nth_error (map (fun p => f (fst p) (snd p)) (combine (seq k (length l)) l)) i = option_map (f (k + i)) (nth_error l i)) by (intro i; apply (H 0)).
  induction l as [|a l IH]; intros k [|i]; cbn; auto. - now rewrite Nat.add_0_r. - rewrite IH. now rewrite Nat.add_succ_r.
Qed.
Lemma mapi_length {A B} (f : nat -> A -> B) l : length (mapi f l) = length l.
Proof. unfold mapi. rewrite map_length, combine_length, seq_length. lia. Qed.

Definition set_all {X} (set : nat -> nat -> X -> X) (masks : list (nat * nat)) (x : X) : X := fold_left (fun x pa => set (fst pa) (snd pa) x) masks x.

Lemma fold_mapi {X} (f : nat -> nat -> X -> X) l : forall xs b,
  nth_error (fold_left (fun xs i => mapi (f i) xs) l xs) b = option_map (fun x => fold_left (fun x i => f i b x) l x) (nth_error xs b).
Proof. induction l as [|i l IH]; intros xs b; cbn. - now destruct (nth_error xs b). - rewrite IH, mapi_nth. now destruct (nth_error xs b). Qed.
Lemma fold_mapi_length {X} (f : nat -> nat -> X -> X) l : forall xs, length (fold_left (fun xs i => mapi (f i) xs) l xs) = length xs.
Proof. induction l as [|i l IH]; intros xs; cbn; auto. now rewrite IH, mapi_length. Qed.

Lemma fold_upto {X} (g : nat -> X -> X) num most x : num <= most ->
  fold_left (fun x i => if i <? num then g i x else x) (seq 0 most) x = fold_left (fun x i => g i x) (seq 0 num) x.
Proof.
  intro H. replace most with (num + (most - num)) by lia. rewrite seq_app, fold_left_app.
  assert (H1 : forall l y, (forall i, In i l -> i < num) -> fold_left (fun x i => if i <? num then g i x else x) l y = fold_left (fun x i => g i x) l y).
  { induction l as [|i l IH]; intros y Hl; cbn [fold_left]; auto. rewrite (proj2 (Nat.ltb_lt i num)) by (apply Hl; now left). apply IH. intros; apply Hl; now right. }
  assert (H2 : forall l y, (forall i, In i l -> num <= i) -> fold_left (fun x i => if i <? num then g i x else x) l y = y).
  { induction l as [|i l IH]; intros y Hl; cbn [fold_left]; auto. rewrite (proj2 (Nat.ltb_ge i num)) by (apply Hl; now left). apply IH. intros; apply Hl; now right. }
  rewrite H2, H1; auto; intros i Hi; apply in_seq in Hi; lia.
Qed.

Lemma map_nth_firstn {A} (d : A) l : forall k, k <= length l -> map (fun i => nth i l d) (seq 0 k) = firstn k l.
Proof.
  induction l as [|a l IH]; intros [|k] H; cbn in *; auto; try lia. f_equal. rewrite <- seq_shift, map_map. apply IH. lia.
Qed.

Lemma filter_lt_seq len n : len <= n -> length (filter (fun i => i <? len) (seq 0 n)) = len.
Proof.
  intro H. replace n with (len + (n - len)) by lia. rewrite seq_app, filter_app, app_length.
  assert (H1 : forall l, (forall i, In i l -> i < len) -> filter (fun i => i <? len) l = l).
  { induction l as [|i l IH]; intros Hl; cbn [filter]; auto. rewrite (proj2 (Nat.ltb_lt i len)) by (apply Hl; now left). f_equal. apply IH. intros; apply Hl; now right. }
  assert (H2 : forall l, (forall i, In i l -> len <= i) -> filter (fun i => i <? len) l = []).
  { induction l as [|i l IH]; intros Hl; cbn [filter]; auto. rewrite (proj2 (Nat.ltb_ge i len)) by (apply Hl; now left). apply IH. intros; apply Hl; now right. }
  rewrite H1, H2; try (intros i Hi; apply in_seq in Hi; lia). rewrite seq_length. cbn. lia.
Qed.
Lemma perm_filter {A} (f : A -> bool) l l' : Permutation l l' -> Permutation (filter f l) (filter f l').
Proof.
  induction 1; cbn; auto. - destruct (f x); auto. - destruct (f x), (f y); auto using perm_swap. - now transitivity (filter f l').
Qed.
Lemma perm_split {A} (f : A -> bool) l : Permutation (filter f l ++ filter (fun i => negb (f i)) l) l.
Proof.
  induction l as [|a l IH]; cbn; auto. destruct (f a); cbn. - now constructor. - etransitivity. symmetry; apply Permutation_middle. now constructor.
Qed.

(** The sorted positions of one sequence *)
Lemma order_facts n len order : Permutation order (seq 0 n) -> len <= n ->
  let idx := filter (fun i => i <? len) order ++ filter (fun i => negb (i <? len)) order in
  NoDup idx /\ length idx = n /\ forall k, k <= n -> length (filter (fun i => i <? len) (firstn k idx)) = Nat.min k len.
Proof.
  intros P Hl idx. assert (P' : Permutation idx (seq 0 n)) by (etransitivity; [apply perm_split|exact P]).
  split; [|split].
  - eapply Permutation_NoDup; [symmetry; exact P'|apply seq_NoDup].
  - now rewrite (Permutation_length P'), seq_length.
  - intros k Hk. unfold idx. rewrite firstn_app, filter_app, app_length.
    assert (La : length (filter (fun i => i <? len) order) = len) by (rewrite (Permutation_length (perm_filter _ _ _ P)); now apply filter_lt_seq).
    assert (Hall : forall l, (forall i, In i l -> i <? len = true) -> filter (fun i => i <? len) l = l).
    { induction l as [|i l IH]; intros H; cbn [filter]; auto. rewrite (H i) by now left. f_equal. apply IH. intros; apply H; now right. }
    assert (Hnone : forall l, (forall i, In i l -> i <? len = false) -> filter (fun i => i <? len) l = []).
    { induction l as [|i l IH]; intros H; cbn [filter]; auto. rewrite (H i) by now left. apply IH. intros; apply H; now right. }
    assert (Hin : forall (l : list nat) j i, In i (firstn j l) -> In i l).
    { intros l j i Hi. rewrite <- (firstn_skipn j l). apply in_or_app. now left. }
    rewrite (Hall (firstn k _)), (Hnone (firstn (k - _) _)).
    + rewrite firstn_length, La. cbn [length]. lia.
    + intros i Hi. apply Hin, filter_In in Hi. destruct Hi as [_ Hi]. now apply Bool.negb_true_iff.
    + intros i Hi. apply Hin, filter_In in Hi. tauto.
Qed.

Lemma uniform_range lo hi r : lo < hi -> lo <= uniform_int lo hi r < hi.
Proof. intro H. unfold uniform_int. pose proof (Nat.mod_upper_bound r (hi - lo)). lia. Qed.

Lemma list_max_ge l x : In x l -> x <= list_max l.
Proof. intro H. pose proof (proj1 (list_max_le l (list_max l)) (le_n _)) as F. rewrite Forall_forall in F. auto. Qed.

Lemma filter_map_fst (g : nat -> bool) (l : list (nat * nat)) : length (filter (fun p => g (fst p)) l) = length (filter g (map fst l)).
Proof. induction l as [|[p a] l IH]; cbn; auto. destruct (g p); cbn; auto. Qed.

(** What [random_mask] does with each sequence *)
Lemma random_mask_spec {X} (set : nat -> nat -> nat -> X -> X) n lens ints lo hi md r xs ys :
  order_ok n r -> (forall b, lens b <= n) -> lo <= hi ->
  random_mask set n lens ints lo hi md r xs = Ok ys ->
  length ys = length xs /\
  forall b x, nth_error xs b = Some x -> exists masks, masks_ok (lens b) md (lo, hi) masks /\ nth_error ys b = Some (set_all (set (lens b)) masks x).
Proof.
  intros Ho Hl Hlh. unfold random_mask.
  set (step1 := if ints && (lo =? hi) then _ else _).
  assert (S1 : forall num most, step1 = Ok (num, most) -> forall b, b < length xs -> lo <= num b <= hi /\ num b <= most).
  { intros num most E b Hb. unfold step1 in E. destruct (ints && (lo =? hi)) eqn:C.
    - injection E as <- <-. apply andb_prop in C. destruct C as [_ C]. apply Nat.eqb_eq in C. lia.
    - destruct (lo <? hi + 1) eqn:C2; [|discriminate]. destruct xs as [|x0 xs0]; [discriminate|].
      injection E as <- <-. pose proof (uniform_range lo (hi + 1) (r_num r b) ltac:(lia)). split; [lia|].
      change (uniform_int lo (hi + 1) (r_num r b) <= list_max (map (fun b => uniform_int lo (hi + 1) (r_num r b)) (seq 0 (length (x0 :: xs0))))).
      apply list_max_ge. apply (in_map (fun b => uniform_int lo (hi + 1) (r_num r b))). apply in_seq. cbn [length] in *. lia. }
  destruct step1 as [[num most]|e]; cbn [bind]; [|discriminate]. specialize (S1 _ _ eq_refl).
  unfold top_k. destruct (most <=? n) eqn:Hm; cbn [bind]; [|discriminate]. apply Nat.leb_le in Hm.
  destruct ((0 <? most) && (md =? 0)) eqn:Hmd; [discriminate|].
  intro E. assert (E' := f_equal (fun z => match z with Ok l => l | Err _ => [] end) E). cbn beta iota in E'. subst ys. clear E. split; [apply fold_mapi_length|].
  intros b x Hx. assert (Hb : b < length xs) by (apply nth_error_Some; congruence).
  destruct (S1 b Hb) as [Hr Hnm]. destruct (order_facts n (lens b) (r_order r b) (Ho b) (Hl b)) as (ND & Ln & Cnt).
  set (idx := filter (fun i => i <? lens b) (r_order r b) ++ filter (fun i => negb (i <? lens b)) (r_order r b)) in *.
  exists (map (fun i => (nth i (firstn most idx) 0, uniform_int 1 (md + 1) (r_amount r i b))) (seq 0 (num b))). split.
  - assert (Hmap : map fst (map (fun i => (nth i (firstn most idx) 0, uniform_int 1 (md + 1) (r_amount r i b))) (seq 0 (num b))) = firstn (num b) idx).
    { rewrite map_map. cbn [fst]. rewrite map_nth_firstn by (rewrite firstn_length; lia). rewrite firstn_firstn. f_equal. lia. }
    unfold masks_ok. cbn [fst snd]. rewrite map_length, seq_length. split; [exact Hr|]. split; [|split].
    + rewrite Hmap. rewrite <- (firstn_skipn (num b) idx) in ND. clear -ND. induction (firstn (num b) idx) as [|a l IH]; [constructor|].
      cbn in ND. inversion ND; subst. constructor; auto. intro Hin. apply H1. apply in_or_app. now left.
    + intros p a Hin. apply in_map_iff in Hin. destruct Hin as (i & E & Hi). apply in_seq in Hi.
      assert (a = uniform_int 1 (md + 1) (r_amount r i b)) by congruence. subst a.
      assert (md <> 0). { intros ->. rewrite Bool.andb_false_iff in Hmd. destruct Hmd as [Hmd|Hmd]; [apply Nat.ltb_ge in Hmd; lia|discriminate]. }
      pose proof (uniform_range 1 (md + 1) (r_amount r i b) ltac:(lia)). lia.
    + rewrite (filter_map_fst (fun p => p <? lens b)), Hmap. apply Cnt. lia.
  - rewrite (fold_mapi (fun i b x => if i <? num b then set (lens b) (nth i (firstn most (filter (fun i => i <? lens b) (r_order r b) ++ filter (fun i => negb (i <? lens b)) (r_order r b))) 0) (uniform_int 1 (md + 1) (r_amount r i b)) x else x)).
    rewrite Hx. cbn [option_map]. f_equal. fold idx.
    rewrite (fold_upto (fun i x => set (lens b) (nth i (firstn most idx) 0) (uniform_int 1 (md + 1) (r_amount r i b)) x)) by exact Hnm.
    unfold set_all. generalize (seq 0 (num b)) as l. clear. intro l. revert x. induction l as [|i l IH]; intros x; cbn [fold_left map]; auto.
Qed.

Lemma random_mask_total {X} (set : nat -> nat -> nat -> X -> X) n lens ints lo hi md r xs :
  xs <> [] -> lo <= hi <= n -> 0 < md -> exists ys, random_mask set n lens ints lo hi md r xs = Ok ys.
Proof.
  intros Hx Hn Hmd. unfold random_mask.
  set (step1 := if ints && (lo =? hi) then _ else _).
  assert (S1 : exists num most, step1 = Ok (num, most) /\ most <= n).
  { unfold step1. destruct (ints && (lo =? hi)); [exists (fun _ => lo), lo; split; [reflexivity|lia]|].
    rewrite (proj2 (Nat.ltb_lt lo (hi + 1))) by lia. destruct xs as [|x0 xs0]; [congruence|]. eexists _, _. split; [reflexivity|].
    apply list_max_le. apply Forall_forall. intros k Hk. apply in_map_iff in Hk. destruct Hk as (b & <- & _).
    pose proof (uniform_range lo (hi + 1) (r_num r b) ltac:(lia)). lia. }
  destruct S1 as (num & most & -> & Hm). cbn [bind]. unfold top_k. rewrite (proj2 (Nat.leb_le most n)) by exact Hm. cbn [bind].
  replace (md =? 0) with false by (symmetry; apply Nat.eqb_neq; lia). rewrite Bool.andb_false_r. eexists. reflexivity.
Qed.

(** Masks one after the other *)
Lemma masked_cov len pos a i : masked len pos a i = (i <? len) && ((pos <=? i) && (i <? pos + a)).
Proof.
  unfold masked. destruct (Nat.leb_spec pos i), (Nat.ltb_spec i len), (Nat.ltb_spec i (pos + a)), (Nat.ltb_spec i (Nat.min (pos + a) len)); cbn [andb]; auto; lia.
Qed.

Lemma time_entry len masks : forall x, map (@length Z) (set_all (mask_time len) masks x) = map (@length Z) x /\
  forall t f v, entry x t f = Some v -> entry (set_all (mask_time len) masks x) t f = Some (if (t <? len) && covered masks t then 0%Z else v).
Proof.
  induction masks as [|[p a] masks IH]; intro x; [split; auto; intros; cbn; now rewrite Bool.andb_false_r|].
  unfold set_all. cbn [fold_left fst snd]. fold (set_all (mask_time len) masks (mask_time len p a x)).
  destruct (IH (mask_time len p a x)) as [I1 I2]. split.
  - rewrite I1. unfold mask_time, mapi. rewrite map_map. clear.
    transitivity (map (fun q => length (snd q)) (combine (seq 0 (length x)) x)). { apply map_ext. intros [i q]; cbn. destruct (masked len p a i); auto. now rewrite map_length. }
    generalize 0 as k. induction x as [|q x IH]; intro k; cbn; auto. now rewrite IH.
  - intros t f v Hv. unfold entry in Hv. destruct (nth_error x t) as [fr|] eqn:Ht; [|discriminate].
    assert (Hv' : entry (mask_time len p a x) t f = Some (if masked len p a t then 0%Z else v)).
    { unfold entry, mask_time. rewrite mapi_nth, Ht. cbn [option_map]. destruct (masked len p a t); auto. now rewrite nth_error_map, Hv. }
    rewrite (I2 _ _ _ Hv'). unfold covered. cbn [existsb fst snd]. fold (covered masks t). rewrite masked_cov.
    destruct (t <? len), ((p <=? t) && (t <? p + a)), (covered masks t); reflexivity.
Qed.

Lemma feature_entry n masks : forall x, map (@length Z) (set_all (mask_feature n) masks x) = map (@length Z) x /\
  forall t f v, entry x t f = Some v -> entry (set_all (mask_feature n) masks x) t f = Some (if (f <? n) && covered masks f then 0%Z else v).
Proof.
  induction masks as [|[p a] masks IH]; intro x; [split; auto; intros; cbn; now rewrite Bool.andb_false_r|].
  unfold set_all. cbn [fold_left fst snd]. fold (set_all (mask_feature n) masks (mask_feature n p a x)).
  destruct (IH (mask_feature n p a x)) as [I1 I2]. split.
  - rewrite I1. unfold mask_feature. rewrite map_map. apply map_ext. intro fr. apply mapi_length.
  - intros t f v Hv. unfold entry in Hv. destruct (nth_error x t) as [fr|] eqn:Ht; [|discriminate].
    assert (Hv' : entry (mask_feature n p a x) t f = Some (if masked n p a f then 0%Z else v)).
    { unfold entry, mask_feature. rewrite nth_error_map, Ht. cbn [option_map]. now rewrite mapi_nth, Hv. }
    rewrite (I2 _ _ _ Hv'). unfold covered. cbn [existsb fst snd]. fold (covered masks f). rewrite masked_cov.
    destruct (f <? n), ((p <=? f) && (f <? p + a)), (covered masks f); reflexivity.
Qed.

Lemma time_mask_range o n : steps_sorted o -> 0 < max_spatial o -> 0 < factor o ->
  let '(s0, s1, s2) := flags o in time_range o n = (Nat.min (s1 + s2) n, Nat.min (Nat.max (n / factor o) 2 * (s0 + s1 + s2 * 2)) n).
Proof.
  intros Hs H1 H2. unfold flags, time_range, phase, steps_sorted in *. destruct (steps o) as [[a b] c].
  rewrite (proj2 (Nat.eqb_neq (max_spatial o) 0)), (proj2 (Nat.eqb_neq (factor o) 0)) by lia. cbn [orb].
  set (m := n / factor o). destruct (step o) as [s|].
  - destruct (Nat.ltb_spec s a), (Nat.ltb_spec s b), (Nat.ltb_spec s c), (Nat.leb_spec a s), (Nat.leb_spec b s), (Nat.leb_spec c s); try lia; cbn [flag nth]; f_equal; f_equal; lia.
  - cbn [nth]. f_equal; f_equal; lia.
Qed.
Lemma feature_mask_range o n : steps_sorted o -> 0 < max_consecutive_feature o n ->
  let '(s0, s1, s2) := flags o in feature_range o n = (s1 + s2, s0 * 2 + s1 + s2 * 2).
Proof.
  intros Hs H1. unfold flags, feature_range, phase, steps_sorted in *. destruct (steps o) as [[a b] c].
  rewrite (proj2 (Nat.eqb_neq (max_consecutive_feature o n) 0)) by lia. destruct (step o) as [s|].
  - destruct (Nat.ltb_spec s a), (Nat.ltb_spec s b), (Nat.ltb_spec s c), (Nat.leb_spec a s), (Nat.leb_spec b s), (Nat.leb_spec c s); try lia; reflexivity.
  - reflexivity.
Qed.
Lemma flags_le o : let '(s0, s1, s2) := flags o in s0 <= 1 /\ s1 <= 1 /\ s2 <= 1.
Proof. unfold flags. destruct (steps o) as [[a b] c]. destruct (step o) as [s|]; [|lia]. unfold flag. destruct (a <=? s), (b <=? s), (c <=? s); lia. Qed.

Lemma no_masks len md : masks_ok len md (0, 0) [].
Proof. split; [cbn; lia|]. split; [constructor|]. split; [intros p a []|reflexivity]. Qed.

Lemma masks_spec o n_time n_feat lens rt rf xs ys :
  steps_sorted o -> batch_ok n_time n_feat lens xs -> order_ok n_time rt -> order_ok n_feat rf ->
  specaugment o true n_time n_feat lens rt rf xs = Ok ys ->
  length ys = length xs /\ forall b x, nth_error xs b = Some x -> exists y tm fm,
    nth_error ys b = Some y /\ masks_ok (lens b) (max_spatial o) (time_range o n_time) tm /\
    masks_ok n_feat (max_consecutive_feature o n_feat) (feature_range o n_feat) fm /\ masked_by (lens b) tm fm x y.
Proof.
  intros Hs (Hne & Hl & Hsh) Ot Of. unfold specaugment. pose proof (time_mask_range o n_time Hs) as TR. pose proof (feature_mask_range o n_feat Hs) as FR.
  destruct (flags o) as [[s0 s1] s2] eqn:Fl. cbn [orb].
  set (t1 := if (0 <? max_spatial o) && (0 <? factor o) then _ else _).
  assert (T1 : forall zs, t1 = Ok zs -> length zs = length xs /\ forall b x, nth_error xs b = Some x -> exists tm,
    masks_ok (lens b) (max_spatial o) (time_range o n_time) tm /\ nth_error zs b = Some (set_all (mask_time (lens b)) tm x)).
  { intros zs E. unfold t1 in E. destruct ((0 <? max_spatial o) && (0 <? factor o)) eqn:C.
    - apply andb_prop in C. destruct C as [C1 C2]. apply Nat.ltb_lt in C1, C2. rewrite (TR C1 C2).
      eapply (random_mask_spec mask_time n_time lens false); eauto. destruct s0, s1, s2; nia.
    - injection E as <-. split; auto. intros b x Hx. exists []. split; [|exact Hx].
      replace (time_range o n_time) with (0, 0); [apply no_masks|]. unfold time_range.
      destruct (max_spatial o); cbn in C |- *; auto. destruct (factor o); cbn in C |- *; auto. discriminate. }
  destruct t1 as [zs|e]; cbn [bind]; [|discriminate]. destruct (T1 _ eq_refl) as [L1 M1].
  assert (F1 : forall us, (if 0 <? max_consecutive_feature o n_feat then
      random_mask mask_feature n_feat (fun _ => n_feat) match step o with Some _ => false | None => true end (s1 + s2) (s0 * 2 + s1 + s2 * 2) (max_consecutive_feature o n_feat) rf zs else Ok zs) = Ok us ->
    length us = length zs /\ forall b x, nth_error zs b = Some x -> exists fm,
    masks_ok n_feat (max_consecutive_feature o n_feat) (feature_range o n_feat) fm /\ nth_error us b = Some (set_all (mask_feature n_feat) fm x)).
  { intros us E. destruct (0 <? max_consecutive_feature o n_feat) eqn:C.
    - apply Nat.ltb_lt in C. rewrite (FR C).
      eapply (random_mask_spec mask_feature n_feat (fun _ => n_feat)); eauto. pose proof (flags_le o) as Q. rewrite Fl in Q. lia.
    - injection E as <-. split; auto. intros b x Hx. exists []. split; [|exact Hx].
      apply Nat.ltb_ge in C. unfold feature_range. rewrite (proj2 (Nat.eqb_eq _ 0)) by lia. apply no_masks. }
  intro E. destruct (F1 _ E) as [L2 M2]. split; [congruence|]. intros b x Hx.
  destruct (M1 b x Hx) as (tm & Ht & Hz). destruct (M2 b _ Hz) as (fm & Hf & Hy).
  exists (set_all (mask_feature n_feat) fm (set_all (mask_time (lens b)) tm x)), tm, fm. split; [exact Hy|]. split; [exact Ht|]. split; [exact Hf|].
  destruct (time_entry (lens b) tm x) as [A1 A2]. destruct (feature_entry n_feat fm (set_all (mask_time (lens b)) tm x)) as [B1 B2].
  split; [congruence|]. intros t f v Hv. rewrite (B2 _ _ _ (A2 _ _ _ Hv)).
  assert (f < n_feat).
  { unfold entry in Hv. destruct (nth_error x t) as [fr|] eqn:Ef; [|discriminate]. rewrite Forall_forall in Hsh.
    destruct (Hsh x (nth_error_In _ _ Hx)) as [_ Hfr]. rewrite Forall_forall in Hfr. rewrite <- (Hfr fr (nth_error_In _ _ Ef)). apply nth_error_Some. congruence. }
  rewrite (proj2 (Nat.ltb_lt f n_feat)) by auto. cbn [andb]. destruct ((t <? lens b) && covered tm t), (covered fm f); reflexivity.
Qed.

Lemma total_spec o train n_time n_feat lens rt rf xs : xs <> [] -> (match max_feature o with Some (S _) => 5 <= n_feat | _ => True end) ->
  exists ys, specaugment o train n_time n_feat lens rt rf xs = Ok ys.
Proof.
  intros Hx Hf. unfold specaugment. pose proof (flags_le o) as Q. destruct (flags o) as [[s0 s1] s2].
  destruct (train || negb (only_on_train o)); [|eauto].
  set (t1 := if (0 <? max_spatial o) && (0 <? factor o) then _ else _).
  assert (T1 : exists zs, t1 = Ok zs /\ zs <> []).
  { unfold t1. destruct ((0 <? max_spatial o) && (0 <? factor o)) eqn:C; [|eauto].
    apply andb_prop in C. destruct C as [C1 C2]. apply Nat.ltb_lt in C1, C2.
    destruct (random_mask_total mask_time n_time lens false (Nat.min (s1 + s2) n_time) (Nat.min (Nat.max (n_time / factor o) 2 * (s0 + s1 + s2 * 2)) n_time) (max_spatial o) rt xs Hx) as [zs E]; auto.
    { split; [|lia]. destruct s0, s1, s2; nia. }
    exists zs. split; auto. intros ->.
    unfold random_mask in E. cbn [andb] in E. destruct (Nat.min (s1 + s2) n_time <? _); [|discriminate]. destruct xs as [|x0 xs0]; [congruence|].
    cbn [bind] in E. unfold top_k in E. destruct (_ <=? n_time) in E; [|discriminate]. cbn [bind] in E. destruct (_ && _) in E; [discriminate|].
    assert (E' := f_equal (fun z => match z with Ok l => length l | Err _ => 0 end) E). cbn beta iota in E'. rewrite fold_mapi_length in E'. discriminate. }
  destruct T1 as (zs & -> & Hz). cbn [bind]. destruct (0 <? max_consecutive_feature o n_feat) eqn:C; [|eauto]. apply Nat.ltb_lt in C.
  apply random_mask_total; auto. split; [lia|]. unfold max_consecutive_feature in C.
  assert (5 <= n_feat). { destruct (max_feature o) as [[|k]|]; auto; apply Nat.nlt_ge; intro; rewrite Nat.div_small in C; lia. }
  lia.
Qed.

(** How much is masked *)
Lemma cover_upper n : forall masks md, (forall p a, In (p, a) masks -> a <= md) -> length (filter (covered masks) (seq 0 n)) <= length masks * md.
Proof.
  induction masks as [|[p a] masks IH]; intros md H.
  - cbn. induction (seq 0 n); cbn; auto.
  - assert (H1 : length (filter (covered ((p, a) :: masks)) (seq 0 n)) <= length (filter (fun i => (p <=? i) && (i <? p + a)) (seq 0 n)) + length (filter (covered masks) (seq 0 n))).
    { clear. induction (seq 0 n) as [|i l IHl]; cbn [filter]; auto.
      assert (covered ((p, a) :: masks) i = ((p <=? i) && (i <? p + a)) || covered masks i) as -> by reflexivity.
      destruct ((p <=? i) && (i <? p + a)), (covered masks i); cbn [orb length] in *; lia. }
    assert (H2 : length (filter (fun i => (p <=? i) && (i <? p + a)) (seq 0 n)) <= a).
    { transitivity (length (seq p a)); [|now rewrite seq_length]. apply NoDup_incl_length; [apply NoDup_filter, seq_NoDup|].
      intros i Hi. apply filter_In in Hi. destruct Hi as [_ Hi]. apply andb_prop in Hi. destruct Hi as [A B]. apply Nat.leb_le in A. apply Nat.ltb_lt in B. apply in_seq. lia. }
    specialize (IH md (fun p a Hin => H p a (or_intror Hin))). specialize (H p a (or_introl eq_refl)). cbn [length]. lia.
Qed.

Lemma cover_lower len masks : NoDup (map fst masks) -> (forall p a, In (p, a) masks -> 1 <= a) ->
  length (filter (fun p => fst p <? len) masks) <= length (filter (covered masks) (seq 0 len)).
Proof.
  intros ND Ha. rewrite (filter_map_fst (fun p => p <? len)). apply NoDup_incl_length; [apply NoDup_filter, ND|].
  intros i Hi. apply filter_In in Hi. destruct Hi as [Hi Hlt]. apply Nat.ltb_lt in Hlt. apply filter_In. split; [apply in_seq; lia|].
  apply in_map_iff in Hi. destruct Hi as ([p a] & E & Hin). cbn in E. subst p. unfold covered. apply existsb_exists. exists (i, a). split; auto.
  specialize (Ha _ _ Hin). cbn. apply andb_true_intro. split; [apply Nat.leb_le|apply Nat.ltb_lt]; lia.
Qed.
