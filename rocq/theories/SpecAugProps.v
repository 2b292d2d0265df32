(** C128: SpecAugment. *)
From Coq Require Import Permutation Lia.
From Verif Require Import Base ListLemmas SpecAugModel SpecAugSpec SpecAugProofs.

(** In training, each sequence gets its own masks over the time and over the features: as many as the phase of the training asks
    for, each one at another start and of at least one and at most the given number of positions. All in the masks is zero, for the whole
    axis over which they are shared; everything else is unchanged, and so is the padding by the masks over the time. *)
Theorem C128_masks o n_time n_feat lens rt rf xs ys :
  steps_sorted o -> batch_ok n_time n_feat lens xs -> order_ok n_time rt -> order_ok n_feat rf ->
  specaugment o true n_time n_feat lens rt rf xs = Ok ys ->
  length ys = length xs /\ forall b x, nth_error xs b = Some x -> exists y tm fm,
    nth_error ys b = Some y /\ masks_ok (lens b) (max_spatial o) (time_range o n_time) tm /\
    masks_ok n_feat (max_consecutive_feature o n_feat) (feature_range o n_feat) fm /\ masked_by (lens b) tm fm x y.
Proof. apply masks_spec. Qed.
Print Assumptions C128_masks.

(** Such masks cover at most the number of masks times the largest length, and inside of the sequence at least as many positions as
    there are masks, or all. *)
Theorem C128_amount len max_dims range masks : masks_ok len max_dims range masks ->
  (forall n, length (filter (covered masks) (seq 0 n)) <= snd range * max_dims) /\
  Nat.min (fst range) len <= length (filter (covered masks) (seq 0 len)).
Proof.
  intros ([H1 H2] & ND & Ha & Hc). split.
  - intro n. etransitivity; [apply (cover_upper n masks max_dims)|apply Nat.mul_le_mono_r, H2]. intros p a Hin. apply (Ha p a Hin).
  - etransitivity; [|apply cover_lower; [exact ND|intros p a Hin; apply (Ha p a Hin)]]. rewrite Hc. lia.
Qed.
Print Assumptions C128_amount.

(** Without training nothing happens, if only on train. *)
Theorem C128_eval o n_time n_feat lens rt rf xs : only_on_train o = true -> specaugment o false n_time n_feat lens rt rf xs = Ok xs.
Proof. intro H. unfold specaugment. destruct (flags o) as [[s0 s1] s2]. now rewrite H. Qed.
Print Assumptions C128_eval.

(** Otherwise it is the same as in training. *)
Theorem C128_always o train n_time n_feat lens rt rf xs : only_on_train o = false ->
  specaugment o train n_time n_feat lens rt rf xs = specaugment o true n_time n_feat lens rt rf xs.
Proof. intro H. unfold specaugment. destruct (flags o) as [[s0 s1] s2]. rewrite H. now rewrite Bool.orb_true_r. Qed.
Print Assumptions C128_always.

(** Before the first of the steps nothing happens. *)
Theorem C128_before o n_time n_feat lens rt rf xs ys : steps_sorted o -> batch_ok n_time n_feat lens xs -> order_ok n_time rt -> order_ok n_feat rf ->
  phase o = 0 -> specaugment o true n_time n_feat lens rt rf xs = Ok ys -> ys = xs.
Proof.
  intros Hs Hb Ot Of Hp E. destruct (masks_spec _ _ _ _ _ _ _ _ Hs Hb Ot Of E) as [HL HM].
  apply nth_error_ext. intro b. destruct (nth_error xs b) as [x|] eqn:Hx.
  - destruct (HM b x Hx) as (y & tm & fm & Hy & Ht & Hf & Hsh & Hm). rewrite Hy. f_equal.
    assert (tm = []). { destruct Ht as [[_ Hq] _]. unfold time_range in Hq. rewrite Hp in Hq. cbn [nth] in Hq. destruct ((max_spatial o =? 0) || (factor o =? 0)); cbn [snd] in Hq; destruct tm; auto; cbn [length] in Hq; lia. }
    assert (fm = []). { destruct Hf as [[_ Hq] _]. unfold feature_range in Hq. rewrite Hp in Hq. cbn [nth] in Hq. destruct (_ =? 0); cbn [snd] in Hq; destruct fm; auto; cbn [length] in Hq; lia. }
    subst. clear -Hsh Hm. cbn [covered existsb] in Hm. apply nth_error_ext. intro t.
    assert (Hl := f_equal (fun l => nth_error l t) Hsh). cbn beta in Hl. rewrite !nth_error_map in Hl.
    destruct (nth_error x t) as [fx|] eqn:Ex, (nth_error y t) as [fy|] eqn:Ey; cbn in Hl; try discriminate; auto.
    f_equal. apply nth_error_ext. intro f. specialize (Hm t f). unfold entry in Hm. rewrite Ex, Ey in Hm.
    destruct (nth_error fx f) as [v|] eqn:Ev. { rewrite (Hm v eq_refl). now rewrite Bool.andb_false_r. }
    apply nth_error_None. apply nth_error_None in Ev. assert (length fy = length fx) by congruence. lia.
  - apply nth_error_None. apply nth_error_None in Hx. lia.
Qed.
Print Assumptions C128_before.

(** There is no error with at least five features, or without an explicit setting of the number of consecutive features. *)
Theorem C128_total o train n_time n_feat lens rt rf xs : xs <> [] -> max_feature o = None \/ 5 <= n_feat ->
  exists ys, specaugment o train n_time n_feat lens rt rf xs = Ok ys.
Proof. intros Hx H. apply total_spec; auto. destruct H as [-> | H]; auto. destruct (max_feature o) as [[|k]|]; auto. Qed.
Print Assumptions C128_total.

(** With fewer features and an explicit setting, it can fail, as more masks are drawn than there are features. *)
Definition seq_rng n k := Rng (fun _ => k) (fun _ => rev (seq 0 n)) (fun i b => i + b).
Theorem C128_small_features_refuted : ~ forall o train n_time n_feat lens rt rf xs, batch_ok n_time n_feat lens xs -> order_ok n_time rt -> order_ok n_feat rf ->
  exists ys, specaugment o train n_time n_feat lens rt rf xs = Ok ys.
Proof.
  intro H. destruct (H (Options None (0, 1000, 2000) true 20 (Some 1) 100) true 1 4 (fun _ => 1) (seq_rng 1 0) (seq_rng 4 3) [[[1; 2; 3; 4]%Z]]) as [ys E].
  - repeat split; auto; try discriminate.
  - intro b. cbn. auto.
  - intro b. apply Permutation_sym, Permutation_rev.
  - vm_compute in E. discriminate.
Qed.
Print Assumptions C128_small_features_refuted.

(** Zero consecutive features do not switch off the masks over the features. *)
Theorem C128_no_features_refuted : ~ forall o n_time n_feat lens rt rf xs ys, max_feature o = Some 0 -> max_spatial o = 0 -> batch_ok n_time n_feat lens xs ->
  order_ok n_time rt -> order_ok n_feat rf -> specaugment o true n_time n_feat lens rt rf xs = Ok ys -> ys = xs.
Proof.
  intro H. specialize (H (Options None (0, 1000, 2000) true 0 (Some 0) 100) 1 5 (fun _ => 1) (seq_rng 1 0) (seq_rng 5 0) [[[1; 2; 3; 4; 5]%Z]] [[[1; 2; 3; 0; 0]%Z]]).
  discriminate H; auto.
  - repeat split; auto; try discriminate.
  - intro b. cbn. auto.
  - intro b. apply Permutation_sym, Permutation_rev.
Qed.
Print Assumptions C128_no_features_refuted.

(** Two sequences of lengths 6 and 3, with two masks over the time and two over the features in the first, and three and four in the second *)
Definition two_seqs : list (list (list Z)) := [repeat [1; 2; 3; 4; 5; 6; 7; 8; 9; 10]%Z 6; repeat [1; 2; 3; 4; 5; 6; 7; 8; 9; 10]%Z 6].
Definition two_lens (b : nat) : nat := match b with 0 => 6 | _ => 3 end.
Definition some_order (n : nat) (b : nat) : list nat := match b with 0 => seq 0 n | _ => rev (seq 0 n) end.
Example C128_example :
  specaugment (Options (Some 5000) (0, 1000, 2000) true 2 (Some 2) 100) true 6 10 two_lens (Rng (fun b => b) (some_order 6) (fun i b => i)) (Rng (fun b => 2 * b) (some_order 10) (fun i b => 0)) two_seqs =
  Ok [[[0; 0; 0; 0; 0; 0; 0; 0; 0; 0]; [0; 0; 0; 0; 0; 0; 0; 0; 0; 0]; [0; 0; 0; 0; 0; 0; 0; 0; 0; 0]; [0; 0; 3; 4; 5; 6; 7; 8; 9; 10]; [0; 0; 3; 4; 5; 6; 7; 8; 9; 10]; [0; 0; 3; 4; 5; 6; 7; 8; 9; 10]];
      [[0; 0; 0; 0; 0; 0; 0; 0; 0; 0]; [0; 0; 0; 0; 0; 0; 0; 0; 0; 0]; [0; 0; 0; 0; 0; 0; 0; 0; 0; 0]; [1; 2; 3; 4; 5; 6; 0; 0; 0; 0]; [1; 2; 3; 4; 5; 6; 0; 0; 0; 0]; [1; 2; 3; 4; 5; 6; 0; 0; 0; 0]]]%Z.
Proof. vm_compute. reflexivity. Qed.
Example C128_example_early :
  specaugment (Options (Some 500) (0, 1000, 2000) true 2 None 3) true 6 10 two_lens (Rng (fun b => b) (some_order 6) (fun i b => i)) (Rng (fun b => b) (some_order 10) (fun i b => 1)) two_seqs =
  Ok [repeat [1; 2; 3; 4; 5; 6; 7; 8; 9; 10] 6;
      [[1; 2; 3; 4; 5; 6; 7; 8; 9; 0]; [1; 2; 3; 4; 5; 6; 7; 8; 9; 0]; [0; 0; 0; 0; 0; 0; 0; 0; 0; 0]; [1; 2; 3; 4; 5; 6; 7; 8; 9; 0]; [1; 2; 3; 4; 5; 6; 7; 8; 9; 0]; [1; 2; 3; 4; 5; 6; 7; 8; 9; 0]]]%Z.
Proof. vm_compute. reflexivity. Qed.
(** The hypotheses of the theorems above hold here. *)
Example C128_example_ok : batch_ok 6 10 two_lens two_seqs /\ order_ok 6 (Rng (fun b => b) (some_order 6) (fun i b => i)).
Proof.
  split.
  - split; [discriminate|]. split; [intros [|b]; cbn; lia|]. repeat constructor.
  - intros [|b]; cbn [r_order some_order]; auto. apply Permutation_sym, Permutation_rev.
Qed.
