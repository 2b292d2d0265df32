(** Property C05: distribution of files over sub epochs and shards. *)
From Verif Require Import Base SeqOrderModel SeqOrderSpec SeqOrderProps DistribModel DistribSpec DistribProofs.
From Coq Require Import String.
Local Open Scope nat_scope.

(** C05: with at least as many files as bins the distribution succeeds for all sizes and however the float
    comparisons come out: exactly [B] non-empty consecutive groups that concatenate to the given order. *)
Theorem C05_distribute_evenly : forall (FL : float_api) (F : Type) (size_of : F -> Z) B (files : list F),
  0 < B -> B <= List.length files ->
  exists bins, distribute_evenly_by_size FL F size_of B files = Ok bins
    /\ List.length bins = B /\ List.concat bins = files /\ Forall (fun b => b <> []) bins.
Proof. exact distribute_ok. Qed.
Print Assumptions C05_distribute_evenly.

(** C05: fewer files than bins are rejected. *)
Theorem C05_too_few_files : forall (FL : float_api) (F : Type) (size_of : F -> Z) B (files : list F),
  List.length files < B -> distribute_evenly_by_size FL F size_of B files = Err AssertionError.
Proof. exact distribute_too_few. Qed.
Print Assumptions C05_too_few_files.

(** exact arithmetic *)
Definition exact_float : float_api := {|
  flt := Z * nat; fdiv := fun a n => (a, n);
  f_le := fun a x => (a * Z.of_nat (snd x) <=? fst x)%Z;
  f_closer := fun a b x => (Z.abs (a * Z.of_nat (snd x) - fst x) <=? Z.abs (b * Z.of_nat (snd x) - fst x))%Z |}.
(** the cases of tests/test_Dataset.py:923-932 *)
Example C05_ex :
  let d := distribute_evenly_by_size exact_float Z (fun x => x) in
  (d 3%nat [1; 10; 1; 1] = Ok [[1]; [10]; [1; 1]]
  /\ d 4%nat [1; 1; 78; 120] = Ok [[1]; [1]; [78]; [120]]
  /\ d 5%nat [1; 1; 1; 56; 141] = Ok [[1]; [1]; [1]; [56]; [141]]
  /\ d 4%nat [1; 1; 1; 56; 141] = Ok [[1; 1]; [1]; [56]; [141]]
  /\ d 5%nat [5; 5; 10; 10; 10; 10; 10; 10; 10] = Ok [[5; 5; 10]; [10; 10]; [10]; [10]; [10; 10]]
  /\ d 8%nat (repeat 1 29%nat) = Ok (map (repeat 1) [4; 4; 4; 3; 3; 3; 4; 4]%nat))%Z.
Proof. vm_compute. repeat split. Qed.

(** C05: whatever sub epochs each shard starts, finishes or revisits in whatever order, and however many sub epochs
    are preloaded: the files that the shards read in the sub epochs of one full epoch are all the files, each once
    (in the given order for "default"), and no sub epoch is empty. *)
Theorem C05_full_epoch_reads_every_file_once :
  forall FL (F : Type) size_of R (files : list F) preload cfg k (obs : nat -> nat -> list F),
  rng_ok R -> (seq_ordering cfg = "default" \/ seq_ordering cfg = "random")%string ->
  0 < partition_epoch cfg -> 0 < num_shards cfg ->
  num_shards cfg * partition_epoch cfg <= List.length files ->
  (forall s j, s < num_shards cfg -> j < partition_epoch cfg ->
     observed FL F size_of R cfg files preload s (k * partition_epoch cfg + 1 + j) (obs s j)) ->
  let all := List.concat (map (fun s => List.concat (map (obs s) (seq 0 (partition_epoch cfg))))
                              (seq 0 (num_shards cfg))) in
  Permutation all files
  /\ (seq_ordering cfg = "default"%string -> all = files)
  /\ (forall s j, s < num_shards cfg -> j < partition_epoch cfg -> obs s j <> []).
Proof. exact history_cover. Qed.
Print Assumptions C05_full_epoch_reads_every_file_once.

(** C05: no history fails. *)
Theorem C05_histories_total : forall FL (F : Type) size_of R (files : list F) preload cfg s ops,
  rng_ok R -> (seq_ordering cfg = "default" \/ seq_ordering cfg = "random")%string ->
  0 < partition_epoch cfg -> s < num_shards cfg ->
  num_shards cfg * partition_epoch cfg <= List.length files ->
  exists d out, run_ops FL F size_of R (with_shard cfg s) files preload ops (dfd_init F) = Ok (d, out).
Proof.
  exact (fun FL F size_of R files preload cfg s ops HR Hord HP Hs Hl =>
    run_ops_ok FL F size_of R files preload (with_shard cfg s) ops HR Hord HP Hs Hl _ (hinv_init FL F size_of R files _)).
Qed.
Print Assumptions C05_histories_total.

Definition ex_dcfg : ds_cfg := {|
  seq_ordering := "random"; partition_epoch := 2; repeat_epoch := 1; num_shards := 2; shard_index := 0;
  unique_seq_tags := false; tags_filter := None; all_tags := [];
  total_num_seqs := 0; fixed_random_seed := None; random_seed_offset := 0 |}.
Example C05_history_ex :
  option_map snd (match run_ops exact_float Z (fun x => x) ex_rng (with_shard ex_dcfg 1) [7; 5; 3; 9; 2; 4]%Z 1
     [OpInit 3; OpFinish false; OpInit 4; OpInit 3; OpFinish true; OpInit 6] (dfd_init Z) with
   Ok x => Some x | Err _ => None end) = Some [(3, [3; 5]%Z); (4, [7]%Z); (3, [3; 5]%Z); (6, [7]%Z)].
Proof. vm_compute. reflexivity. Qed.
