(** Batch norm, layer norm, moments; label smoothing. *)
From Coq Require Import QArith Qcanon.
From Verif Require Import Base ConvModel ConvSpec ConvProofs NormModel NormSpec NormProofs.
Local Open Scope nat_scope.

(** * Batch norm *)
(** Training (or without running statistics), with masking: all frames of the sequences, and only these, are normalized with their mean
    and variance, and the running statistics move to these. What is in the padding does not matter. *)
Theorem C118_train : forall rsqrt default b train xs lens rows, masks default b -> train = true \/ bn_running b = None -> padded xs lens rows -> concat xs <> [] ->
  let m := mean (concat xs) in let v := variance (concat xs) in
  exists out, call rsqrt default b train true lens rows
    = Some (with_running b (match bn_running b with None => None | Some (rm, rv) => Some (mixed (bn_momentum b) rm m, mixed (bn_momentum b) rv v) end), out) /\
    padded (map (map (norm_of rsqrt b m v)) xs) lens out.
Proof. exact train_ok. Qed.
Print Assumptions C118_train.

(** Evaluation: every frame is normalized with the running statistics, which stay; so the result for a sequence does not depend on
    the other sequences of the batch. *)
Theorem C118_eval : forall rsqrt default b rm rv dyn xs lens rows, bn_running b = Some (rm, rv) -> padded xs lens rows ->
  exists out, call rsqrt default b false dyn lens rows = Some (b, out) /\ padded (map (map (norm_of rsqrt b rm rv)) xs) lens out.
Proof. exact eval_ok. Qed.
Print Assumptions C118_eval.

(** The same without masking (no padding, or use_mask=False), on at least two values; but now the running variance moves to the unbiased estimate. *)
Theorem C118_plain : forall rsqrt default b train dyn lens rows, (dyn = false \/ bn_use_mask b = Some false) -> train = true \/ bn_running b = None -> 1 < length (concat rows) ->
  let xs := concat rows in
  call rsqrt default b train dyn lens rows
    = Some (with_running b (match bn_running b with None => None | Some (rm, rv) => Some (mixed (bn_momentum b) rm (mean xs), mixed (bn_momentum b) rv (unbiased_variance xs)) end),
            map (map (norm_of rsqrt b (mean xs) (variance xs))) rows).
Proof. exact plain_ok. Qed.
Print Assumptions C118_plain.

(** What this normalization means: the result has the mean beta and the variance of the input times rsqrt² times gamma². *)
Theorem C118_normal : forall rsqrt b l, l <> [] ->
  let out := map (norm_of rsqrt b (mean l) (variance l)) l in
  mean out = match bn_affine b with None => 0%Qc | Some (_, beta) => beta end /\
  variance out = (variance l * square (rsqrt (variance l + bn_eps b)) * match bn_affine b with None => 1 | Some (gamma, _) => square gamma end)%Qc.
Proof. exact norm_stats. Qed.
Print Assumptions C118_normal.

(** After any number of batches, the running statistics are the weighted means of those of the batches; they stay in the range of these and
    of the start values, and the running variance is never negative. *)
Theorem C118_running : forall rsqrt default batches datas b rm rv,
  Forall2 (fun xs b => padded xs (fst b) (snd b) /\ concat xs <> []) datas batches -> masks default b -> bn_running b = Some (rm, rv) ->
  train_run rsqrt default b batches = Some (with_running b (Some (mixed_all (bn_momentum b) rm (map (fun xs => mean (concat xs)) datas),
                                                                   mixed_all (bn_momentum b) rv (map (fun xs => variance (concat xs)) datas)))).
Proof. intros. now apply train_run_ok. Qed.
Print Assumptions C118_running.

Theorem C118_running_range : forall momentum lo hi old curs, between 0 1 momentum -> between lo hi old -> Forall (between lo hi) curs -> between lo hi (mixed_all momentum old curs).
Proof. intros. now apply mixed_all_between. Qed.
Print Assumptions C118_running_range.

Theorem C118_variance : forall l, (0 <= variance l)%Qc.
Proof. exact variance_nonneg. Qed.
Print Assumptions C118_variance.

(** Moments with masking and any correction. *)
Theorem C118_moments : forall xs lens rows c, padded xs lens rows -> concat xs <> [] -> qnat (length (concat xs)) <> c ->
  moments true true c lens rows = Some (mean (concat xs), (qsum (deviations (concat xs)) / (qnat (length (concat xs)) - c))%Qc).
Proof. exact moments_masked. Qed.
Print Assumptions C118_moments.

(** Finding: with [use_mask=False] the mean should be that of the whole tensor, as the variance; but the mean is still masked. Here the
    mean of 1, 5, 3, 3 is 3. *)
Theorem C118_moments_unmasked_refuted : exists lens rows v,
  moments true false 0%Qc lens rows = Some v /\ fst v <> mean (concat rows) /\ snd v <> variance (concat rows).
Proof.
  exists [1; 2], [[Q2Qc 1; Q2Qc 5]; [Q2Qc 3; Q2Qc 3]]. eexists. split; [vm_compute; reflexivity|].
  split; intros E; apply (f_equal this) in E; vm_compute in E; discriminate.
Qed.
Print Assumptions C118_moments_unmasked_refuted.

(** Finding: on the same values, the running variance depends on whether the time dim is dynamic (needs masking) or static: biased in
    the one case, unbiased in the other; the documentation has the same formula for both. *)
Theorem C118_running_variance_refuted : exists b lens rows b1 b2 out, forall rsqrt,
  call rsqrt true b true true lens rows = Some (b1, out rsqrt) /\ call rsqrt true b true false lens rows = Some (b2, out rsqrt) /\ bn_running b1 <> bn_running b2.
Proof.
  exists (new_batch_norm true (Q2Qc (1 # 10)) 0%Qc true None), [2], [[Q2Qc 1; Q2Qc 3]]. do 2 eexists.
  exists (fun rsqrt => normalized rsqrt (new_batch_norm true (Q2Qc (1 # 10)) 0%Qc true None) (mean [Q2Qc 1; Q2Qc 3]) (variance [Q2Qc 1; Q2Qc 3]) [[Q2Qc 1; Q2Qc 3]]).
  intros rsqrt. rewrite normalized_eq.
  assert (P : padded [[Q2Qc 1; Q2Qc 3]] [2] [[Q2Qc 1; Q2Qc 3]]) by (split; [easy|]; constructor; [|constructor]; split; [now exists []|easy]).
  split; [|split].
  - unfold call. cbn [bn_use_mask new_batch_norm]. unfold call_masked. cbn [bn_running new_batch_norm]. rewrite (moments_biased [[Q2Qc 1; Q2Qc 3]]) by easy.
    rewrite <- normalized_eq. reflexivity.
  - rewrite (C118_plain rsqrt true _ true false [2] [[Q2Qc 1; Q2Qc 3]]); [|now left|now left|cbn; lia]. cbn [bn_running new_batch_norm concat app]. reflexivity.
  - cbn [bn_running with_running new_batch_norm bn_momentum]. intros E.
    apply (f_equal (fun o => match o with Some (_, v) => this v | None => 0%Q end)) in E. vm_compute in E. discriminate.
Qed.
Print Assumptions C118_running_variance_refuted.

(** Finding: a batch with a single frame can be used for training with masking, but not without (e.g. if its length is static). *)
Theorem C118_single_refuted : exists b x, forall rsqrt, call rsqrt true b true true [1] [[x]] <> None /\ call rsqrt true b true false [1] [[x]] = None.
Proof.
  exists (new_batch_norm true (Q2Qc (1 # 10)) 0%Qc true None), 1%Qc. intros rsqrt. split; [|reflexivity].
  assert (P : padded [[1%Qc]] [1] [[1%Qc]]) by (split; [easy|]; constructor; [|constructor]; split; [now exists []|easy]).
  destruct (C118_train rsqrt true (new_batch_norm true (Q2Qc (1 # 10)) 0%Qc true None) true [[1%Qc]] [1] [[1%Qc]]) as (out & E & _); [right; easy|now left|exact P|easy|].
  rewrite E. easy.
Qed.
Print Assumptions C118_single_refuted.

(** Layer norm: with the mean and variance of the frame, scale and bias of each entry. *)
Theorem C118_layer_norm : forall rsqrt eps scale bias x, x <> [] -> length scale = length x -> (match bias with None => True | Some b => length b = length x end) ->
  exists out, layer_norm rsqrt eps scale bias x = Some out /\ length out = length x /\
    forall i, i < length x -> nth_error out i
      = Some ((nth i x 0 - mean x) * rsqrt (variance x + eps) * nth i scale 0 + match bias with None => 0 | Some b => nth i b 0 end)%Qc.
Proof. exact layer_norm_ok. Qed.
Print Assumptions C118_layer_norm.

Theorem C118_layer_norm_shift : forall rsqrt eps scale bias c x, x <> [] -> length scale = length x -> (match bias with None => True | Some b => length b = length x end) ->
  layer_norm rsqrt eps scale bias (map (fun v => (v + c)%Qc) x) = layer_norm rsqrt eps scale bias x.
Proof. exact layer_norm_shift. Qed.
Print Assumptions C118_layer_norm_shift.

(** * Label smoothing *)
(** The result is a distribution, for every smoothing between 0 and 1 *)
Theorem C119_distribution : forall s p, 1 < length p -> between 0 1 s -> distribution p -> exists q, label_smoothing s p = Ok q /\ length q = length p /\ distribution q.
Proof. exact smoothing_distribution. Qed.
Print Assumptions C119_distribution.

(** Each label keeps 1 - smoothing of its probability and gets its part of what the others give away. *)
Theorem C119_value : forall s p, length p <> 1 ->
  label_smoothing s p = Ok (map (fun x => (x * (1 - s) + (1 - x) * (s / (qnat (length p) - 1)))%Qc) p).
Proof.
  intros s p H. destruct (smoothing_ok s p H) as (f & Ef & E). rewrite E. f_equal. apply map_ext. intros x. rewrite Ef, smooth_value by easy. ring.
Qed.
Print Assumptions C119_value.

(** the order of the labels does not change for a smoothing below (n-1)/n *)
Theorem C119_order : forall s p i j, 1 < length p -> (s * qnat (length p) < qnat (length p) - 1)%Qc -> i < length p -> j < length p ->
  forall q, label_smoothing s p = Ok q -> ((nth i q 0 < nth j q 0)%Qc <-> (nth i p 0 < nth j p 0)%Qc).
Proof. exact smoothing_order. Qed.
Print Assumptions C119_order.

(** sparse labels: the same as for the one-hot distribution *)
Theorem C119_sparse : forall s n label, n <> 1 -> label < n -> label_smoothing_sparse s n label = label_smoothing s (one_hot n label).
Proof. exact sparse_dense. Qed.
Print Assumptions C119_sparse.

(** a single label: an error (also for smoothing 0) *)
Theorem C119_single : forall s p, length p = 1 -> label_smoothing s p = Err ZeroDivisionError.
Proof. exact smoothing_one. Qed.
Print Assumptions C119_single.

(** The gradient of a cross-entropy loss (also a scaled one, or of a masked frame: c = 0) becomes the one for smoothed targets. *)
Theorem C119_gradient : forall s c p, length p <> 1 -> (0 <= c)%Qc -> distribution p ->
  exists q, label_smoothing s p = Ok q /\ smoothed_gradient s [] (negated (scaled c p)) = Ok (negated (scaled c q)).
Proof. exact smoothed_gradient_ok. Qed.
Print Assumptions C119_gradient.

(** With excluded labels: these keep their probability, the others are smoothed, as if they had the whole probability; so the sum is that
    of a distribution iff the excluded labels have no probability. *)
Theorem C119_excluded : forall s c exclude p, s <> 0%Qc -> exclude <> [] -> NoDup exclude -> Forall (fun e => e < length p) exclude ->
  length p <> length exclude + 1 -> (0 <= c)%Qc -> distribution p ->
  let k := length p - length exclude in
  exists q, smoothed_gradient s (map Z.of_nat exclude) (negated (scaled c p)) = Ok q /\ length q = length p /\
    (forall i, i < length p -> nth i q 0%Qc =
       (- (c * if included exclude i then (1 - nth i p 0) * (s / (qnat k - 1)) + nth i p 0 * (1 - s) else nth i p 0))%Qc) /\
    qsum q = (- (c * (1 + excluded_prob exclude p * qnat k * (s / (qnat k - 1)))))%Qc.
Proof. exact smoothed_excluded. Qed.
Print Assumptions C119_excluded.

(** Finding: "Sum of prob over included labels does not change" is wrong if an excluded label (blank) has some probability, as in CTC:
    a frame where blank has all probability gets a target with the sum 1 + smoothing * k / (k - 1). *)
Theorem C119_excluded_refuted : exists s exclude p q, between 0 1 s /\ distribution p /\
  smoothed_gradient s exclude (negated p) = Ok (negated q) /\ ~ distribution q /\ qsum q = Q2Qc (23 # 20).
Proof.
  exists (Q2Qc (1 # 10)), [0%Z], [1%Qc; 0%Qc; 0%Qc; 0%Qc], [1%Qc; Q2Qc (1 # 20); Q2Qc (1 # 20); Q2Qc (1 # 20)].
  split; [split; vm_compute; easy|]. split; [split; [repeat constructor; vm_compute; easy|vm_compute; reflexivity]|]. split; [vm_compute; reflexivity|].
  split; [|vm_compute; reflexivity]. intros [_ H]. apply (f_equal this) in H. vm_compute in H. discriminate.
Qed.
Print Assumptions C119_excluded_refuted.

(** Finding: a label given twice is counted twice (also one given as a negative index is counted, but not excluded): an error, or less smoothing *)
Theorem C119_excluded_twice_refuted : exists s p q q', distribution p /\ smoothed_gradient s [0%Z] p = Ok q /\ smoothed_gradient s [0%Z; 0%Z] p = Ok q' /\ q <> q'
  /\ smoothed_gradient s [-4; 0]%Z p = Ok q'.
Proof.
  exists (Q2Qc (1 # 10)), [0%Qc; 0%Qc; 0%Qc; 1%Qc; 0%Qc]. do 2 eexists. split; [split; [repeat constructor; vm_compute; easy|vm_compute; reflexivity]|].
  split; [vm_compute; reflexivity|]. split; [vm_compute; reflexivity|]. split; [|vm_compute; reflexivity].
  intros E. apply (f_equal (fun l => this (nth 3 l 0%Qc))) in E. vm_compute in E. discriminate.
Qed.
Print Assumptions C119_excluded_twice_refuted.

(** * Examples *)
(** two sequences, one with padding (the 9) *)
Definition two : list (list Qc) := [[Q2Qc 1; Q2Qc 3]; [Q2Qc 5]].
Definition two_rows : list (list Qc) := [[Q2Qc 1; Q2Qc 3]; [Q2Qc 5; Q2Qc 9]].
Example two_padded : padded two [2; 1] two_rows /\ concat two <> [] /\ mean (concat two) = Q2Qc 3 /\ variance (concat two) = Q2Qc (8 # 3) /\
  masks true (new_batch_norm true (Q2Qc (1 # 10)) 0%Qc true None).
Proof.
  split; [|split; [easy|split; [apply Qc_is_canon; vm_compute; reflexivity|split; [apply Qc_is_canon; vm_compute; reflexivity|now right]]]].
  split; [reflexivity|]. constructor; [split; [now exists []|easy]|]. constructor; [|constructor]. split; [now exists [Q2Qc 9]|easy].
Qed.
Example two_moments : option_map (fun mv => (this (fst mv), this (snd mv))) (moments true true 0%Qc [2; 1] two_rows) = Some (3 # 1, 8 # 3)%Q.
Proof. vm_compute. reflexivity. Qed.
Example two_train : option_map (fun br => (option_map (fun mv => (this (fst mv), this (snd mv))) (bn_running (fst br)), map (map this) (snd br)))
    (call (fun x => x) true (new_batch_norm true (Q2Qc (1 # 10)) 0%Qc true None) true true [2; 1] two_rows)
  = Some (Some ((3 # 10)%Q, (7 # 6)%Q), [[(-16 # 3)%Q; 0%Q]; [(16 # 3)%Q; 16%Q]]).
Proof. vm_compute. reflexivity. Qed.
Example smooth : (let* q := label_smoothing (Q2Qc (1 # 10)) (one_hot 3 1) in Ok (map this q)) = Ok [(1 # 20)%Q; (9 # 10)%Q; (1 # 20)%Q].
Proof. vm_compute. reflexivity. Qed.
Example excluded_case : distribution [Q2Qc (1 # 2); Q2Qc (1 # 2); 0%Qc; 0%Qc] /\ NoDup [0] /\ excluded_prob [0] [Q2Qc (1 # 2); Q2Qc (1 # 2); 0%Qc; 0%Qc] = Q2Qc (1 # 2).
Proof.
  split; [split; [repeat (apply Forall_cons; [vm_compute; easy|]); apply Forall_nil|apply Qc_is_canon; vm_compute; reflexivity]|].
  split; [repeat constructor; intros []|apply Qc_is_canon; vm_compute; reflexivity].
Qed.

(** Without running statistics *)
Example two_untracked : option_map (fun br => (bn_running (fst br), map (map this) (snd br)))
    (call (fun x => x) true (new_batch_norm false (Q2Qc (1 # 10)) 0%Qc false None) false true [2; 1] two_rows)
  = Some (None, [[(-16 # 3)%Q; 0%Q]; [(16 # 3)%Q; 16%Q]]).
Proof. vm_compute. reflexivity. Qed.
