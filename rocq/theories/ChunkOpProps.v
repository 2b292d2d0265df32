(** C124 (chunking and unchunking) and C125 (their gradients). *)
From Coq Require Import QArith Qcanon.
From Verif Require Import Base ChunkOpModel ChunkOpSpec ChunkOpProofs.
Local Open Scope nat_scope.

(** ** C124 *)
(** The formula for the number of chunks is what the naive loop counts, and chunk [c] starts at [step * c]. *)
Theorem C124_n_chunks : forall n_time size step, 0 < step ->
  naive_starts (n_time + 1) n_time size step 0 = Some (map (fun c => step * c) (seq 0 (n_chunks n_time size step))).
Proof. intros. apply naive_starts_n. assumption. Qed.
Print Assumptions C124_n_chunks.
(** All frames are covered; no chunk is useless: the last one has frames which those before it do not have. *)
Theorem C124_cover : forall n_time size step, 0 < step -> step <= size -> 0 < n_time ->
  let n := n_chunks n_time size step in
  (forall t, t < n_time -> exists c, c < n /\ step * c <= t < step * c + size) /\ (1 < n -> step * (n - 2) + size < n_time).
Proof.
  intros n_time size step Hs Hss HT n.
  assert (P1 : 0 < n) by apply n_chunks_pos. assert (P2 : n_time <= step * (n - 1) + size) by (apply n_chunks_cover; assumption).
  assert (P3 : step * (n - 1) < n_time) by (apply n_chunks_start; assumption). split.
  - intros t Ht. exists ((t + step - size) / step).
    pose proof (chunks_nonempty n_time 1 size step n HT Nat.lt_0_1 Hs Hss P1 P2 P3 t Ht) as Q.
    destruct (proj1 (in_chunks n_time 1 size step n HT Nat.lt_0_1 Hs Hss P1 P2 P3 t ((t + step - size) / step) Ht)) as (A & B & C); [lia|]. auto.
  - intros Hn. unfold n, n_chunks in Hn |- *. replace ((n_time + step - 1 - size) / step + 1 - 2) with ((n_time + step - 1 - size) / step - 1) by lia.
    pose proof (Nat.mul_div_le (n_time + step - 1 - size) step ltac:(lia)) as D. clearbody n. clear P1 P2 P3.
    set (k := (n_time + step - 1 - size) / step) in *. clearbody k. pose proof (Nat.mul_le_mono_l 1 k step ltac:(lia)). rewrite Nat.mul_sub_distr_l. lia.
Qed.
Print Assumptions C124_cover.
(** Chunking succeeds, and frame [x] of chunk [c] of the sequence [y] is the frame [step * c + x] of this sequence, or zero and
    masked when there is no such frame. *)
Theorem C124_chunk : forall n_time batch size step x index, 0 < n_time -> 0 < batch -> 0 < step -> step <= size ->
  tensor n_time batch x -> tensor n_time batch index -> let n := n_chunks n_time size step in
  exists out oindex, chunk n_time batch x index size step = Some (out, oindex) /\
    tensor size (batch * n) out /\ tensor size (batch * n) oindex /\ same_mask n_time batch n size step index oindex /\
    (forall y c i, y < batch -> c < n -> i < size -> val 0%Qc out i (y * n + c) = frame n_time x index (step * c + i) y).
Proof.
  intros n_time batch size step x index HT Hb Hs Hss Tx Ti n. assert (P1 : 0 < n) by apply n_chunks_pos. assert (P2 : n_time <= step * (n - 1) + size) by (apply n_chunks_cover; assumption).
  assert (P3 : step * (n - 1) < n_time) by (apply n_chunks_start; assumption).
  eexists. eexists. split; [apply (chunk_ok n_time batch size step n); assumption || reflexivity|].
  split; [apply gridl_tensor|]. split; [apply gridl_tensor|]. split; [apply cindex_same; assumption|].
  intros y c i Hy Hc Hi. apply chunked_val; assumption.
Qed.
Print Assumptions C124_chunk.
(** Unchunking gives the mean over the chunks which have the frame; a frame which no chunk has gets zero and is masked. *)
Theorem C124_unchunk : forall n_time batch size step n x cindex, 0 < n_time -> 0 < batch -> 0 < step -> step <= size ->
  n = n_chunks n_time size step -> tensor size (batch * n) x -> tensor size (batch * n) cindex ->
  exists out oindex factors, unchunk (batch * n) x cindex size step n_time batch = Some (out, oindex, factors) /\
    tensor n_time batch out /\ tensor n_time batch oindex /\ tensor n_time batch factors /\
    (forall t y, t < n_time -> y < batch -> let l := covering n size step cindex t y in
       val 0%Qc out t y = (if 0 <? length l then (lsum (fun c => val 0 x (t - step * c)%nat (y * n + c)%nat) l / qn (length l))%Qc else 0%Qc) /\
       val false oindex t y = (0 <? length l) /\
       val 0%Qc factors t y = (if 0 <? length l then (1 / qn (length l))%Qc else 1%Qc)).
Proof.
  intros n_time batch size step n x cindex HT Hb Hs Hss -> Tx Tc. do 3 eexists.
  split; [apply unchunk_ok; try assumption; [apply n_chunks_pos|apply n_chunks_cover; assumption|apply n_chunks_start; assumption]|].
  split; [apply gridl_tensor|]. split; [apply gridl_tensor|]. split; [apply gridl_tensor|].
  intros t y Ht Hy l. rewrite !gridl_val by assumption. split; [|split]; reflexivity.
Qed.
Print Assumptions C124_unchunk.
(** Unchunking what was chunked gives the input, with zeros at masked frames, and the mask. *)
Theorem C124_round_trip : forall n_time batch size step x index, 0 < n_time -> 0 < batch -> 0 < step -> step <= size ->
  tensor n_time batch x -> tensor n_time batch index ->
  exists cx cindex out factors, chunk n_time batch x index size step = Some (cx, cindex) /\
    unchunk (batch * n_chunks n_time size step) cx cindex size step n_time batch = Some (out, index, factors) /\
    (forall t y, t < n_time -> y < batch -> val 0%Qc out t y = frame n_time x index t y) /\
    tensor n_time batch out.
Proof.
  intros n_time batch size step x index HT Hb Hs Hss Tx Ti. pose (n := n_chunks n_time size step).
  assert (P1 : 0 < n) by apply n_chunks_pos. assert (P2 : n_time <= step * (n - 1) + size) by (apply n_chunks_cover; assumption).
  assert (P3 : step * (n - 1) < n_time) by (apply n_chunks_start; assumption).
  exists (chunked n_time batch size step n x index), (cindex n_time batch size step n index). do 2 eexists. split; [apply (chunk_ok n_time batch size step n); assumption || reflexivity|]. split.
  - fold n. rewrite (unchunk_ok n_time batch size step n) by (try assumption; apply gridl_tensor).
    assert (E : gridl (fun t y => 0 <? length (covering n size step (cindex n_time batch size step n index) t y)) n_time batch = index).
    { etransitivity; [|symmetry; apply (tensor_gridl _ false index n_time batch Ti)]. apply gridl_ext. intros t y Ht Hy.
      apply (covering_valid n_time batch size step n); try assumption. apply cindex_same; assumption. }
    rewrite E. reflexivity.
  - split; [|apply gridl_tensor]. intros t y Ht Hy. rewrite gridl_val by assumption. apply round_trip_cell; assumption.
Qed.
Print Assumptions C124_round_trip.
(** False: chunking needs [step <= size]: otherwise the last chunk can start behind the end, although the naive loop gives it.
    Also an empty time gives an error instead of empty outputs. *)
Theorem C124_step_refuted : ~ (forall n_time batch size step x index, 0 < n_time -> 0 < batch -> 0 < step -> 0 < size ->
  tensor n_time batch x -> tensor n_time batch index -> chunk n_time batch x index size step <> None).
Proof.
  intros H. apply (H 2 1 1 5 [[1%Qc]; [1%Qc]] [[true]; [true]]); try lia; try (split; [reflexivity|repeat constructor]). vm_compute. reflexivity.
Qed.
Print Assumptions C124_step_refuted.
Theorem C124_empty_refuted : ~ (forall batch size step x index, 0 < batch -> 0 < step -> step <= size ->
  tensor 0 batch x -> tensor 0 batch index -> chunk 0 batch x index size step <> None).
Proof. intros H. apply (H 1 2 1 [] []); try lia; try (split; [reflexivity|constructor]). vm_compute. reflexivity. Qed.
Print Assumptions C124_empty_refuted.

(** ** C125 *)
(** The gradient of chunking is its adjoint: for every gradient [g] of the output. *)
Theorem C125_chunk_grad : forall n_time batch size step x index g cx cindex, 0 < n_time -> 0 < batch -> 0 < step -> step <= size ->
  tensor n_time batch x -> tensor n_time batch index -> tensor size (batch * n_chunks n_time size step) g ->
  chunk n_time batch x index size step = Some (cx, cindex) ->
  exists dx, chunk_grad n_time batch cindex g size step = Some dx /\ tensor n_time batch dx /\
    dot size (batch * n_chunks n_time size step) cx g = dot n_time batch x dx.
Proof.
  intros n_time batch size step x index g cx cindex HT Hb Hs Hss Tx Ti Tg E. pose (n := n_chunks n_time size step).
  assert (P1 : 0 < n) by apply n_chunks_pos. assert (P2 : n_time <= step * (n - 1) + size) by (apply n_chunks_cover; assumption).
  assert (P3 : step * (n - 1) < n_time) by (apply n_chunks_start; assumption).
  rewrite (chunk_ok n_time batch size step n) in E by (assumption || reflexivity). injection E as <- <-.
  eexists. split; [eapply chunk_grad_ok with (n := n); try eassumption; try reflexivity; [apply gridl_tensor|eapply cindex_same; eassumption]|]. split; [apply gridl_tensor|].
  eapply chunk_adjoint with (n := n); try eassumption; try reflexivity. eapply chunk_grad_ok with (n := n); try eassumption; try reflexivity; [apply gridl_tensor|eapply cindex_same; eassumption].
Qed.
Print Assumptions C125_chunk_grad.
(** The gradient of unchunking is its adjoint, when the mask of the chunks is one which chunking gives. *)
Theorem C125_unchunk_grad : forall n_time batch size step index x cindex out oindex factors g, 0 < n_time -> 0 < batch -> 0 < step -> step <= size ->
  let n := n_chunks n_time size step in
  tensor size (batch * n) x -> tensor size (batch * n) cindex -> tensor n_time batch index -> same_mask n_time batch n size step index cindex -> tensor n_time batch g ->
  unchunk (batch * n) x cindex size step n_time batch = Some (out, oindex, factors) ->
  exists dx, unchunk_grad n_time batch oindex factors g size step = Some dx /\ tensor size (batch * n) dx /\
    dot n_time batch out g = dot size (batch * n) x dx.
Proof.
  intros n_time batch size step index x cindex out oindex factors g HT Hb Hs Hss n Tx Tc Ti Hm Tg E.
  assert (P1 : 0 < n) by apply n_chunks_pos. assert (P2 : n_time <= step * (n - 1) + size) by (apply n_chunks_cover; assumption).
  assert (P3 : step * (n - 1) < n_time) by (apply n_chunks_start; assumption).
  rewrite (unchunk_ok n_time batch size step n) in E by assumption. injection E as <- <- <-.
  assert (G : exists dx, unchunk_grad n_time batch (gridl (fun t y => 0 <? length (covering n size step cindex t y)) n_time batch) (gridl (factor_of size step n cindex) n_time batch) g size step = Some dx /\ tensor size (batch * n) dx).
  { unfold unchunk_grad. rewrite (tensor_gridl _ 0%Qc g n_time batch Tg), zip_gridl. rewrite (chunk_ok n_time batch size step n) by (try assumption; try reflexivity; apply gridl_tensor).
    cbn [obind fst]. eexists. split; [reflexivity|]. apply gridl_tensor. }
  destruct G as (dx & G1 & G2). exists dx. split; [exact G1|]. split; [exact G2|].
  eapply unchunk_adjoint with (index := index) (ci := cindex); try eassumption. reflexivity.
Qed.
Print Assumptions C125_unchunk_grad.
(** False: for other masks; the gradient of unchunking uses the mask of the sequence instead of the one of each chunk frame. *)
Theorem C125_mask_refuted : ~ (forall n_time batch size step x cindex out oindex factors g dx, 0 < n_time -> 0 < batch -> 0 < step -> step <= size ->
  let n := n_chunks n_time size step in
  tensor size (batch * n) x -> tensor size (batch * n) cindex -> tensor n_time batch g ->
  unchunk (batch * n) x cindex size step n_time batch = Some (out, oindex, factors) ->
  unchunk_grad n_time batch oindex factors g size step = Some dx ->
  dot n_time batch out g = dot size (batch * n) x dx).
Proof.
  intros H.
  assert (E := H 3 1 2 1 [[1; 1]; [1; 1]]%Qc [[true; false]; [true; true]]
     [[1]; [1]; [1]]%Qc [[true]; [true]; [true]] [[1]; [1]; [1]]%Qc [[0]; [1]; [0]]%Qc [[0; 1]; [1; 0]]%Qc
     ltac:(lia) ltac:(lia) ltac:(lia) ltac:(lia)). cbv zeta in E.
  assert (X : (dot 3 1 [[1]; [1]; [1]]%Qc [[0]; [1]; [0]]%Qc) = dot 2 2 [[1; 1]; [1; 1]]%Qc [[0; 1]; [1; 0]]%Qc).
  { apply E; try (split; [reflexivity|repeat constructor]).
    - vm_compute. repeat f_equal; apply Qc_is_canon; reflexivity.
    - vm_compute. repeat f_equal; apply Qc_is_canon; reflexivity. }
  apply (f_equal this) in X. vm_compute in X. discriminate.
Qed.
Print Assumptions C125_mask_refuted.

(** ** Examples *)
(** native_op.py 2260-2269 *)
Example C124_ex_docs : map (fun t => n_chunks t 50 10) [1; 49; 50; 51; 60; 61; 99; 100; 101] = [1; 1; 1; 2; 2; 3; 6; 6; 7].
Proof. reflexivity. Qed.
(** tests/test_TFNativeOp.py 1368-1383, [test_chunk_simple]: 17 frames *)
Example C124_ex_tests : map (fun ss => n_chunks 17 (fst ss) (snd ss)) [(2, 1); (2, 2); (4, 2); (4, 3); (4, 4); (10, 4); (20, 4)] = [16; 9; 8; 6; 5; 3; 1].
Proof. reflexivity. Qed.
Definition q (n : Z) : Qc := Q2Qc (inject_Z n).
Example C124_ex_chunk :
  option_map (fun r => (map (map this) (fst r), snd r)) (chunk 5 2 [[q 1; q 6]; [q 2; q 7]; [q 3; q 8]; [q 4; q 9]; [q 5; q 10]] [[true; true]; [true; true]; [true; true]; [true; true]; [true; false]] 3 2)
  = Some ([[1; 3; 6; 8]; [2; 4; 7; 9]; [3; 5; 8; 0]], [[true; true; true; true]; [true; true; true; true]; [true; true; true; false]])%Q.
Proof. vm_compute. reflexivity. Qed.
(** The number of chunks which unchunking accepts is not unique. *)
Example C124_ex_not_unique : map (fun n => check_dims n 1 10 10 1 4) [1; 2; 3; 4; 5] = [Some 1; Some 2; Some 3; Some 4; None].
Proof. reflexivity. Qed.
