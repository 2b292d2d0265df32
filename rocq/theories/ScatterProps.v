(** C80-C83: scattering, its variants, and the masks of the largest values. *)
From Coq Require Import QArith Qcanon.
From Coq Require Import Permutation Sorted Lia.
From Verif Require Import Base ConvModel PadOpsModel ScatterModel ScatterSpec ScatterProofs.
Local Open Scope nat_scope.

(** Each row is the sequence [idxs], [src], followed by anything ([jidxs], [junk]). *)
Theorem C80_sum : forall O idxs src jidxs junk is_int fill,
  default_fill Sum is_int = Ok (Fin fill) ->
  length idxs = length src -> length jidxs = length junk -> Forall (within O) (idxs ++ jidxs) ->
  exists out, scatter Z.add fill true (length src) O (idxs ++ jidxs) (src ++ junk) = Ok out /\ length out = O /\
    forall o, o < O -> nth_error out o = Some (zsum (pointing idxs src o)).
Proof.
  intros O idxs src jidxs junk is_int fill [= <-] HL HJ HF. destruct (scatter_ok Z.add 0%Z O idxs src jidxs junk Z.add_0_r HL HJ HF) as (out & E & L & N).
  exists out. split; auto. split; auto. intros o Ho. rewrite (N o Ho), ored_zsum. reflexivity.
Qed.
Print Assumptions C80_sum.

Theorem C80_max : forall O idxs src jidxs junk fill,
  default_fill Max false = Ok fill ->
  length idxs = length src -> length jidxs = length junk -> Forall (within O) (idxs ++ jidxs) ->
  exists out, scatter num_max fill true (length src) O (idxs ++ jidxs) (src ++ junk) = Ok out /\ length out = O /\
    forall o, o < O -> exists m, nth_error out o = Some m /\ largest (pointing idxs src o) m.
Proof.
  intros O idxs src jidxs junk fill [= <-] HL HJ HF. destruct (scatter_ok num_max NegInf O idxs src jidxs junk num_max_neg HL HJ HF) as (out & E & L & N).
  exists out. split; auto. split; auto. intros o Ho. rewrite (N o Ho). eexists. split; [reflexivity|]. apply ored_largest.
Qed.
Print Assumptions C80_max.

Theorem C80_min : forall O idxs src jidxs junk fill,
  default_fill Min false = Ok fill ->
  length idxs = length src -> length jidxs = length junk -> Forall (within O) (idxs ++ jidxs) ->
  exists out, scatter num_min fill true (length src) O (idxs ++ jidxs) (src ++ junk) = Ok out /\ length out = O /\
    forall o, o < O -> exists m, nth_error out o = Some m /\ smallest (pointing idxs src o) m.
Proof.
  intros O idxs src jidxs junk fill [= <-] HL HJ HF. destruct (scatter_ok num_min PosInf O idxs src jidxs junk num_min_pos HL HJ HF) as (out & E & L & N).
  exists out. split; auto. split; auto. intros o Ho. rewrite (N o Ho). eexists. split; [reflexivity|]. apply ored_smallest.
Qed.
Print Assumptions C80_min.

(** an index outside of the out dim is an error, also after the end of the sequence *)
Theorem C80_range : forall {A} (op : A -> A -> A) fill use_mask n O idxs src,
  length idxs = length src ->
  (is_ok (scatter op fill use_mask n O idxs src) = true <-> Forall (within O) idxs).
Proof.
  intros A op fill um n O idxs src HL. split; [apply scatter_range; auto|]. intros HF. unfold scatter.
  destruct (backend_ok op fill O idxs (if um then masked fill n src else src)) as (out & E & _); auto; [|rewrite E; reflexivity].
  destruct um; auto. unfold masked. rewrite map_length, combine_length, seq_length. lia.
Qed.
Print Assumptions C80_range.

(** Without padding, any fill value is only for the entries that no index points to. *)
Theorem C80_fill : forall O idxs src fill use_mask,
  length idxs = length src -> Forall (within O) idxs ->
  exists out, scatter Z.add fill use_mask (length src) O idxs src = Ok out /\ length out = O /\
    forall o, o < O -> nth_error out o = Some (match pointing idxs src o with [] => fill | l => zsum l end).
Proof.
  intros O idxs src fill um HL HF. destruct (scatter_full Z.add fill um O idxs src HL HF) as (out & E & L & N).
  exists out. split; auto. split; auto. intros o Ho. rewrite (N o Ho). f_equal. destruct (pointing idxs src o) as [|a l]; auto.
  rewrite <- ored_zsum. 
  change (ored Z.add None (a :: l)) with (ored Z.add (Some a) l). rewrite ored_fold. reflexivity.
Qed.
Print Assumptions C80_fill.

(** With padding, a fill value other than zero is added for each index after the end of the sequence. *)
Theorem C80_fill_refuted :
  exists O idxs src jidxs junk fill out,
    length idxs = length src /\ length jidxs = length junk /\ Forall (within O) (idxs ++ jidxs) /\
    scatter Z.add fill true (length src) O (idxs ++ jidxs) (src ++ junk) = Ok out /\
    pointing idxs src 0 = [10; 20]%Z /\ nth_error out 0 = Some 32%Z.
Proof.
  exists 2, [0; 0]%Z, [10; 20]%Z, [0; 0]%Z, [5; 5]%Z, 1%Z, [32; 1]%Z.
  repeat split; try reflexivity. repeat constructor; unfold within; lia.
Qed.
Print Assumptions C80_fill_refuted.

(** the maximum (minimum) of integers needs an explicit fill value *)
Theorem C80_int_refuted : forall m, m <> Sum -> is_ok (default_fill m true) = false.
Proof. intros [| |]; cbn; congruence. Qed.
Print Assumptions C80_int_refuted.

Example C80_ex : scatter Z.add 0%Z true 3 4 [2; 0; 2; 2; 1]%Z [10; 20; 30; 99; 99]%Z = Ok [20; 0; 40; 0]%Z.
Proof. reflexivity. Qed.
Example C80_ex_max : scatter num_max NegInf true 3 4 [2; 0; 2; 2; 1]%Z [Fin 10; Fin 20; Fin 30; Fin 99; Fin 99] = Ok [Fin 20; NegInf; Fin 30; NegInf].
Proof. reflexivity. Qed.
Example C80_ex_old : scatter Z.add 0%Z false 3 4 [2; 0; 2; 2; 1]%Z [10; 20; 30; 99; 99]%Z = Ok [20; 99; 139; 0]%Z.
Proof. reflexivity. Qed.

(** * C81: argmax *)
Theorem C81_argmax : forall use_mask O idxs src invalid maxint,
  length idxs = length src -> Forall (within O) idxs -> (Z.of_nat (length src) <= maxint)%Z ->
  exists out, scatter_argmax use_mask (length src) O idxs src (Some invalid) maxint = Ok out /\ length out = O /\
    forall o, o < O -> exists r, nth_error out o = Some r /\
      ((~ In (Z.of_nat o) idxs /\ r = invalid) \/ exists t, r = Z.of_nat t /\ first_largest idxs src o t).
Proof. exact argmax_full. Qed.
Print Assumptions C81_argmax.

(** With padding: correct for the entries that no index after the end points to. *)
Theorem C81_padding : forall O idxs src jidxs junk invalid maxint,
  length idxs = length src -> length jidxs = length junk -> Forall (within O) (idxs ++ jidxs) -> (Z.of_nat (length src) <= maxint)%Z ->
  (invalid < 0)%Z ->
  exists out, scatter_argmax true (length src) O (idxs ++ jidxs) (src ++ junk) (Some invalid) maxint = Ok out /\ length out = O /\
    forall o, o < O -> ~ In (Z.of_nat o) jidxs -> exists r, nth_error out o = Some r /\
      ((~ In (Z.of_nat o) idxs /\ r = invalid) \/ exists t, r = Z.of_nat t /\ first_largest idxs src o t).
Proof.
  intros O idxs src jidxs junk invalid maxint HL HJ HF HM HI.
  destruct (argmax_padded O idxs src jidxs junk invalid maxint HL HJ HF HM HI) as (out & E & L & N). exists out. split; auto. split; auto.
  intros o Ho Hn. specialize (N o Ho). destruct (existsb (Z.eqb (Z.of_nat o)) jidxs) eqn:EJ; auto.
  apply existsb_exists in EJ as (z & Hz & Ez). apply Z.eqb_eq in Ez. subst z. contradiction.
Qed.
Print Assumptions C81_padding.

(** All other entries are lost: they get the invalid index, whatever the sequence is. *)
Theorem C81_padding_refuted : forall O idxs src jidxs junk invalid maxint,
  length idxs = length src -> length jidxs = length junk -> Forall (within O) (idxs ++ jidxs) -> (Z.of_nat (length src) <= maxint)%Z ->
  (invalid < 0)%Z ->
  exists out, scatter_argmax true (length src) O (idxs ++ jidxs) (src ++ junk) (Some invalid) maxint = Ok out /\
    forall o, In (Z.of_nat o) jidxs -> nth_error out o = Some invalid.
Proof.
  intros O idxs src jidxs junk invalid maxint HL HJ HF HM HI.
  destruct (argmax_padded O idxs src jidxs junk invalid maxint HL HJ HF HM HI) as (out & E & L & N). exists out. split; auto.
  intros o Hn. assert (Ho : o < O). { apply Forall_app in HF as [_ HF]. rewrite Forall_forall in HF. specialize (HF _ Hn). unfold within in HF. lia. }
  destruct (N o Ho) as (r & Er & Hr). replace (existsb (Z.eqb (Z.of_nat o)) jidxs) with true in Hr; [rewrite Er, Hr; auto|].
  symmetry. apply existsb_exists. exists (Z.of_nat o). split; auto. apply Z.eqb_refl.
Qed.
Print Assumptions C81_padding_refuted.

(** without an explicit invalid index, as by [scatter(mode="argmax")], there is no result *)
Theorem C81_default_refuted : forall use_mask n O idxs src maxint,
  is_ok (scatter_argmax use_mask n O idxs src None maxint) = false.
Proof.
  intros um n O idxs src maxint. unfold scatter_argmax. destruct (scatter num_max NegInf um n O idxs src); auto. cbn [bind].
  destruct (mapM (gather1 a) idxs); auto.
Qed.
Print Assumptions C81_default_refuted.

Example C81_ex : scatter_argmax true 5 4 [2; 0; 2; 2; 1]%Z [Fin 10; Fin 20; Fin 30; Fin 30; NegInf] (Some (-1)%Z) 2147483647%Z
  = Ok [1; 4; 2; -1]%Z.
Proof. reflexivity. Qed.
Example C81_ex_padded : scatter_argmax true 3 4 [2; 0; 2; 0]%Z [Fin 10; Fin 20; Fin 30; Fin 0] (Some (-1)%Z) 2147483647%Z
  = Ok [-1; -1; 2; -1]%Z.
Proof. reflexivity. Qed.

(** * C82: log-sum-exp and log-mean-exp (log-values by their exponentials) *)
Theorem C82_logsumexp : forall O idxs src jidxs junk,
  length idxs = length src -> length jidxs = length junk -> Forall (within O) (idxs ++ jidxs) -> Forall (fun a => (0 <= a)%Qc) src ->
  exists out, scatter_logsumexp true (length src) O (idxs ++ jidxs) (src ++ junk) None = Ok out /\ length out = O /\
    forall o, o < O -> nth_error out o = Some (Some (qsum (pointing idxs src o))).
Proof. intros. apply logsumexp_ok; auto. Qed.
Print Assumptions C82_logsumexp.

Theorem C82_logmeanexp : forall use_mask O idxs src,
  length idxs = length src -> Forall (within O) idxs -> Forall (fun a => (0 <= a)%Qc) src ->
  exists out, scatter_logmeanexp use_mask (length src) O idxs src None = Ok out /\ length out = O /\
    forall o, o < O -> nth_error out o = Some (Some (qsum (pointing idxs src o) / count_of (pointing idxs src o))%Qc).
Proof.
  intros um O idxs src HL HF HP. pose proof (logmeanexp_ok um O idxs src [] [] (or_intror eq_refl) HL eq_refl) as H.
  rewrite !app_nil_r in H. apply H; auto.
Qed.
Print Assumptions C82_logmeanexp.

(** With padding, the frames after the end are counted. *)
Theorem C82_padding_refuted : forall O idxs src jidxs junk,
  length idxs = length src -> length jidxs = length junk -> Forall (within O) (idxs ++ jidxs) -> Forall (fun a => (0 <= a)%Qc) src ->
  exists out, scatter_logmeanexp true (length src) O (idxs ++ jidxs) (src ++ junk) None = Ok out /\ length out = O /\
    forall o, o < O -> nth_error out o = Some (Some (qsum (pointing idxs src o) / count_of (pointing (idxs ++ jidxs) (src ++ junk) o))%Qc).
Proof. intros. apply logmeanexp_ok; auto. Qed.
Print Assumptions C82_padding_refuted.

(** a fill value is an error *)
Theorem C82_fill_refuted : forall use_mask n O idxs src f, is_ok (scatter_logsumexp use_mask n O idxs src (Some f)) = false.
Proof.
  intros um n O idxs src f. unfold scatter_logsumexp. destruct (scatter qmax 0%Qc um n O idxs src); auto. cbn [bind].
  destruct (mapM (gather1 a) idxs); auto.
Qed.
Print Assumptions C82_fill_refuted.

Definition q (n : Z) (d : positive) : Qc := Q2Qc (n # d).
Definition shown (r : res (list (option Qc))) := match r with Ok l => Ok (map (option_map this) l) | Err e => Err e end.
Example C82_ex : shown (scatter_logsumexp true 3 3 [2; 0; 2; 0]%Z [q 1 2; q 1 3; q 1 4; q 9 1] None) = Ok [Some (1 # 3); Some (0 # 1); Some (3 # 4)].
Proof. vm_compute. reflexivity. Qed.
Example C82_ex_mean : shown (scatter_logmeanexp true 4 3 [2; 0; 2; 0]%Z [q 1 2; q 1 3; q 1 4; q 1 1] None) = Ok [Some (2 # 3); Some (0 # 1); Some (3 # 8)].
Proof. vm_compute. reflexivity. Qed.
Example C82_ex_padded : shown (scatter_logmeanexp true 3 3 [2; 0; 2; 0]%Z [q 1 2; q 1 3; q 1 4; q 1 1] None) = Ok [Some (1 # 6); Some (0 # 1); Some (3 # 8)].
Proof. vm_compute. reflexivity. Qed.

(** * C83: masks of the largest values *)
Theorem C83_top_k : forall vals k indices, top_indices vals k indices ->
  exists mask, top_k_mask (length vals) indices = Ok mask /\ length mask = length vals /\
    length (selected vals mask) = k /\ top_set vals mask.
Proof. exact top_k_ok. Qed.
Print Assumptions C83_top_k.

Theorem C83_top_p : forall unit probs p order,
  descending probs order -> Forall (fun a => (0 <= a)%Z) probs -> (0 <= p <= unit)%Z ->
  exists mask, top_p_mask unit probs p false order = Ok mask /\ length mask = length probs /\ top_set probs mask /\
    (zsum (selected probs mask) <= p)%Z /\
    (unselected probs mask = [] \/
     exists b, In b (unselected probs mask) /\ Forall (fun b' => (b' <= b)%Z) (unselected probs mask) /\ (p < zsum (selected probs mask) + b)%Z).
Proof. exact top_p_less. Qed.
Print Assumptions C83_top_p.

(** [p] must be a probability *)
Theorem C83_top_p_range : forall unit probs p one_more order, ~ (0 <= p <= unit)%Z ->
  top_p_mask unit probs p one_more order = Err AssertionError.
Proof.
  intros unit probs p b order H. unfold top_p_mask. destruct (Z.leb_spec 0 p); [|reflexivity]. destruct (Z.leb_spec p unit); [lia|reflexivity].
Qed.
Print Assumptions C83_top_p_range.

Theorem C83_top_p_one_more : forall unit probs p order,
  descending probs order -> Forall (fun a => (0 <= a)%Z) probs -> (0 <= p <= unit)%Z -> probs <> [] ->
  exists mask, top_p_mask unit probs p true order = Ok mask /\ length mask = length probs /\ top_set probs mask /\
    (exists a, In a (selected probs mask) /\ Forall (fun a' => (a <= a')%Z) (selected probs mask) /\ (zsum (selected probs mask) - a <= p)%Z) /\
    (unselected probs mask = [] \/ (p < zsum (selected probs mask))%Z).
Proof. exact top_p_more. Qed.
Print Assumptions C83_top_p_one_more.

Example C83_ex : top_p_mask 100 [10; 40; 15; 35]%Z 80%Z true [1; 3; 2; 0] = Ok [false; true; true; true] /\
  top_p_mask 100 [10; 40; 15; 35]%Z 80%Z false [1; 3; 2; 0] = Ok [false; true; false; true] /\
  descending [10; 40; 15; 35]%Z [1; 3; 2; 0].
Proof.
  split; [reflexivity|]. split; [reflexivity|]. split.
  - apply NoDup_Permutation; [apply seq_NoDup| |].
    + repeat constructor; cbn; intuition discriminate.
    + intros x. rewrite in_seq. cbn. intuition lia.
  - repeat constructor; cbn; lia.
Qed.
Example C83_ex_k : top_k_mask 4 [1; 3] = Ok [false; true; false; true].
Proof. reflexivity. Qed.
