(** Properties C06 and C07: prefetching worker processes and the multi process dataset. *)
From Verif Require Import Base SeqOrderModel SeqOrderSpec SeqOrderProps WorkerModel WorkerSpec WorkerProofs.
From Coq Require Import Sorted String.
Local Open Scope nat_scope.
Local Notation length := List.length.
Local Notation concat := List.concat.

(** C06: whatever the worker prefetches between the messages, the parent gets for every admissible sequence of
    requests exactly the requested sequences, in every epoch. No internal check of the worker fires. *)
Theorem C06_worker_serves_requests : forall (D : Type) buffer_size (ms : list (nat * msg D)),
  admissible buffer_size None (map snd ms) ->
  exists s, worker D buffer_size ms (w_init D) = Ok (s, expected_replies [] (map snd ms)).
Proof. exact (@worker_from_start). Qed.
Print Assumptions C06_worker_serves_requests.

Example C06_ex :
  let ms := [(0, MInit nat [10; 11; 12; 13; 14]); (1, MGet nat 0); (7, MGet nat 2); (0, MGet nat 3); (0, MGet nat 9);
             (2, MFinish nat); (2, MInit nat [20; 21]); (5, MGet nat 1); (0, MGet nat 1); (0, MGet nat 2)] in
  admissible 2 None (map snd ms)
  /\ option_map snd (match worker nat 2 ms (w_init nat) with Ok x => Some x | Err _ => None end)
     = Some [RNum nat 5; RSeq nat (Some (0, 10)); RSeq nat (Some (2, 12)); RSeq nat (Some (3, 13)); RSeq nat None;
             RNum nat 2; RSeq nat (Some (1, 21)); RSeq nat (Some (1, 21)); RSeq nat None].
Proof. split; [cbn; repeat split; lia|vm_compute; reflexivity]. Qed.

(** C06: the worker never holds more than buffer_size sequences. *)
Theorem C06_memory_bound : forall (D : Type) buffer_size (ms : list (nat * msg D)) s rs,
  worker D buffer_size ms (w_init D) = Ok (s, rs) -> length (cache D s) <= buffer_size.
Proof.
  exact (fun D buffer_size ms s rs H => worker_bound buffer_size ms (w_init D) s rs (Nat.le_0_l _) H).
Qed.
Print Assumptions C06_memory_bound.

(** C06, limit of the interface: skipping at least buffer_size sequences fails or works depending on how far the
    worker happened to have prefetched. *)
Theorem C06_skipping_refuted :
  exists (l : list nat) buffer_size ms1 ms2,
    map snd ms1 = map snd ms2
    /\ map snd ms1 = [MInit nat l; MGet nat 0; MGet nat 3] /\ 3 < length l
    /\ worker nat buffer_size ms1 (w_init nat) = Err OtherException
    /\ exists s, worker nat buffer_size ms2 (w_init nat) = Ok (s, expected_replies [] (map snd ms2)).
Proof.
  exists [10; 11; 12; 13; 14], 2, [(0, MInit nat [10; 11; 12; 13; 14]); (0, MGet nat 0); (0, MGet nat 3)],
    [(0, MInit nat [10; 11; 12; 13; 14]); (0, MGet nat 0); (1, MGet nat 3)].
  split; [reflexivity|]. split; [reflexivity|]. split; [cbn; lia|]. split; [vm_compute; reflexivity|].
  eexists. vm_compute. reflexivity.
Qed.
Print Assumptions C06_skipping_refuted.

(** C06, limit of the interface: once sequences 0 .. n-1 were read, reading an earlier one than n-1 from the same
    worker fails under every schedule. (A DistributeFilesDataset keeps the worker of an epoch until a later epoch
    starts, finish_epoch() does not stop it, so starting the same epoch again runs into this.) *)
Theorem C06_reread_fails : forall (D : Type) buffer_size (l : list D) ks k0 k1 j,
  0 < buffer_size -> length ks <= length l -> S j < length ks ->
  worker D buffer_size ((k0, MInit D l) :: combine ks (map (MGet D) (seq 0 (length ks))) ++ [(k1, MGet D j)]) (w_init D)
  = Err OtherException.
Proof. exact (@reread_fails). Qed.
Print Assumptions C06_reread_fails.

(** C07: reading the sequences 0, 1, 2, ... of a MultiProcDataset (sharding_method "seq_order") yields the sequence
    order of the wrapped dataset and then None, for every number of workers, every buffer size and every
    prefetching schedule; the completion fractions never decrease. *)
Theorem C07_seq_order_sharding : forall (D : Type) buffer_size (order : list (D * option Z)) W scheds m,
  0 < buffer_size -> 0 < W -> Forall (fun c => snd c <> None) order ->
  exists m' out,
    mp_read D buffer_size (combine scheds (seq 0 (length scheds))) (mp_init D (seq_order_shards W order) m) = Ok (m', out)
    /\ map no_frac out = map (fun i => option_map (fun c => (i, fst c)) (nth_error order i)) (seq 0 (length scheds))
    /\ StronglySorted Z.le (fracs out).
Proof. exact (@mp_seq_order). Qed.
Print Assumptions C07_seq_order_sharding.

Definition ex_order : list (nat * option Z) := map (fun i => (i + 100, Some (Z.of_nat i))) (seq 0 5).
Definition ex_m0 : mstate nat := {| wstates := []; cur_max_complete_frac := 0 |}.
Example C07_ex :
  option_map snd (match mp_read nat 2 (combine (repeat (fun w => w) 6) (seq 0 6))
    (mp_init nat (seq_order_shards 3 ex_order) ex_m0) with Ok x => Some x | Err _ => None end)
  = Some [Some (0, 100, 0%Z); Some (1, 101, 1%Z); Some (2, 102, 2%Z); Some (3, 103, 3%Z); Some (4, 104, 4%Z); None].
Proof. vm_compute. reflexivity. Qed.

(** C07: with sharding_method "dedicated" every worker gets its shard of the order [l] of the sub epoch; reading as
    many sequences as the workers report in sum yields every sequence of the shards exactly once. (By
    C01_partition_and_shards_cover the shards of all sub epochs make up the whole order.) *)
Theorem C07_dedicated_sharding : forall (D : Type) buffer_size (l : list (D * option Z)) P e W pieces scheds m,
  0 < buffer_size -> 0 < P -> 0 < W -> Forall (fun c => snd c <> None) l ->
  mapM (fun w => apply_partition_epoch_and_sharding l P (Some e) W w) (seq 0 W) = Ok pieces ->
  length scheds = length (concat pieces) ->
  exists m' out,
    mp_read D buffer_size (combine scheds (seq 0 (length scheds))) (mp_init D pieces m) = Ok (m', out)
    /\ Permutation (map (option_map snd) (map no_frac out)) (map (fun c => Some (fst c)) (concat pieces))
    /\ StronglySorted Z.le (fracs out).
Proof. exact (@mp_dedicated). Qed.
Print Assumptions C07_dedicated_sharding.

Example C07_dedicated_ex :
  mapM (fun w => apply_partition_epoch_and_sharding ex_order 1 (Some 3) 2 w) (seq 0 2)
  = Ok [[(100, Some 0%Z); (101, Some 1%Z); (102, Some 2%Z)]; [(103, Some 3%Z); (104, Some 4%Z)]]
  /\ option_map snd (match mp_read nat 2 (combine (repeat (fun w => w) 5) (seq 0 5))
    (mp_init nat [[(100, Some 0%Z); (101, Some 1%Z); (102, Some 2%Z)]; [(103, Some 3%Z); (104, Some 4%Z)]] ex_m0) with
       Ok x => Some x | Err _ => None end)
  = Some [Some (0, 100, 0%Z); Some (1, 103, 3%Z); Some (2, 101, 3%Z); Some (3, 104, 4%Z); Some (4, 102, 4%Z)].
Proof. split; vm_compute; reflexivity. Qed.

(** C07, finding: together with a tag filter (applied after sharding) the shards of "dedicated" become unbalanced
    and sequences get lost: 4 sequences are reported, the fourth read gives None, sequence 3 is never delivered. *)
Definition ex_filter_cfg : ds_cfg := {|
  seq_ordering := "reverse"; partition_epoch := 1; repeat_epoch := 1; num_shards := 2; shard_index := 0;
  unique_seq_tags := false; tags_filter := Some ["b"; "c"; "d"]%string; all_tags := ["a"; "b"; "a"; "c"; "b"; "d"]%string;
  total_num_seqs := 6; fixed_random_seed := None; random_seed_offset := 0 |}.
Theorem C07_dedicated_with_filter_refuted :
  exists cfg shards,
    mapM (fun w => get_seq_order_for_epoch ex_rng ex_int (with_shard cfg w) None (Some 1) 6) (seq 0 2) = Ok shards
    /\ length (concat shards) = 4 /\ In 3 (concat shards)
    /\ exists m out,
      mp_read nat 10 (combine (repeat (fun _ => 0) 4) (seq 0 4)) (mp_init nat (map (map (fun i => (i, Some 0%Z))) shards) ex_m0)
      = Ok (m, out)
      /\ map (option_map snd) (map no_frac out) = [Some 5; Some 1; Some 4; None].
Proof.
  exists ex_filter_cfg, [[5; 4; 3]; [1]]. split; [vm_compute; reflexivity|]. split; [reflexivity|].
  split; [cbn; tauto|]. eexists _, _. split; vm_compute; reflexivity.
Qed.
Print Assumptions C07_dedicated_with_filter_refuted.

(** C07, finding: a wrapped dataset that cannot tell its completion fraction (None) makes the parent fail with a
    TypeError on the first read. *)
Theorem C07_unknown_frac_refuted : forall (D : Type) (d : D) buffer_size W order m,
  0 < buffer_size -> 0 < W -> nth_error order 0 = Some (d, None) ->
  mp_read D buffer_size [(fun _ => 0, 0)] (mp_init D (seq_order_shards W order) m) = Err TypeError.
Proof. exact (@unknown_frac_fails). Qed.
Print Assumptions C07_unknown_frac_refuted.
