(** Properties C01-C04: sequence ordering, partition epochs and sharding. *)
From Verif Require Import Base PySort SeqOrderModel SeqOrderSpec SeqOrderProofs.
From Coq Require Import Ascii String.
Local Open Scope nat_scope.

(** C01: over one full epoch, the pieces of all sub-epochs and shards concatenate to the given order, and
    their sizes differ by at most one. (No assertion fails: every call returns [Ok].) *)
Theorem C01_partition_and_shards_cover : forall (A : Type) (l : list A) P S k,
  0 < P -> 0 < S ->
  exists pieces,
    map (fun es => apply_partition_epoch_and_sharding l P (Some (fst es)) S (snd es)) (full_epoch_jobs k P S)
    = map Ok pieces
    /\ List.concat pieces = l
    /\ (forall p q, In p pieces -> In q pieces -> List.length p <= List.length q + 1).
Proof. exact (@partition_full_epoch). Qed.
Print Assumptions C01_partition_and_shards_cover.

Example C01_ex :
  map (fun es => apply_partition_epoch_and_sharding [10;11;12;13;14;15;16] 2 (Some (fst es)) 2 (snd es))
      (full_epoch_jobs 3 2 2)
  = [Ok [10; 11]; Ok [12; 13]; Ok [14; 15]; Ok [16]].
Proof. vm_compute. reflexivity. Qed.

(** a random generator for the examples: reversal, with a state that counts the calls *)
Definition ex_rng : rng_api :=
  {| rng := Z; rng_seed := fun s => s; rng_permutation := fun n g => (rev (seq 0 (Z.to_nat n)), (g + 1)%Z);
     rng_shuffle := fun l g => (rev l, (g + 1)%Z) |}.
Example ex_rng_ok : rng_ok ex_rng.
Proof. split; cbn; intros; symmetry; apply Permutation_rev. Qed.
Definition ex_int (s : string) : option Z := if String.eqb s "3" then Some 3%Z else None.
Definition ex_len (i : nat) : Z := Z.of_nat (i * 5 mod 7).

(** C01: without an epoch number it is the first part. *)
Theorem C01_without_epoch : forall (A : Type) (l : list A) P S s,
  apply_partition_epoch_and_sharding l P None S s = apply_partition_epoch_and_sharding l P (Some 1) S s.
Proof. reflexivity. Qed.
Print Assumptions C01_without_epoch.

(** C02: every ordering (but default_every_n, below) visits each of the [n] sequences exactly once. *)
Theorem C02_order_is_permutation : forall R py_int method seed off len e n out,
  rng_ok R -> 0 < n -> startswith method "default_every_n:" = false ->
  get_seq_order_for_epoch R py_int (plain_cfg method seed off) len (Some e) n = Ok out ->
  Permutation out (seq 0 n).
Proof.
  exact (fun R py_int method seed off len e n out HR Hn Hm H =>
    base_order_perm R py_int (plain_cfg method seed off) len e n out HR Hm
      (eq_trans (eq_sym (plain_order R py_int method seed off len e n Hn)) H)).
Qed.
Print Assumptions C02_order_is_permutation.

Example C02_ex :
  map (fun m => get_seq_order_for_epoch ex_rng ex_int (plain_cfg m None 0) (Some ex_len) (Some 2) 10)
      ["default"; "reverse"; "sorted"; "sorted_reverse"; "random:3"; "laplace:.3"; "sort_bin_shuffle_x2:3:3"]%string
  = [Ok [0; 1; 2; 3; 4; 5; 6; 7; 8; 9]; Ok [9; 8; 7; 6; 5; 4; 3; 2; 1; 0]; Ok [0; 7; 3; 6; 2; 9; 5; 1; 8; 4];
     Ok [4; 1; 8; 5; 2; 9; 6; 3; 0; 7]; Ok [9; 8; 7; 6; 5; 4; 3; 2; 1; 0]; Ok [7; 9; 8; 4; 5; 6; 0; 3; 2; 1];
     Ok [4; 1; 8; 5; 2; 9; 6; 3; 0; 7]].
Proof. vm_compute. reflexivity. Qed.

(** C02: the methods with default parameters never raise. *)
Theorem C02_order_total : forall R py_int seed off len e n method,
  0 < n -> rng_ok R ->
  In method ["default"; "reverse"; "sorted"; "sorted_reverse"; "random"; "laplace"; "sort_bin_shuffle";
             "sort_bin_shuffle_x2"]%string ->
  exists out, get_seq_order_for_epoch R py_int (plain_cfg method seed off) (Some len) (Some e) n = Ok out.
Proof. exact plain_order_total. Qed.
Print Assumptions C02_order_total.

(** C02: default_every_n:num visits exactly the first num * (n div num) sequences once ... *)
Theorem C02_default_every_n : forall R py_int seed off len e n s num,
  0 < n -> ~ In ":"%char (list_ascii_of_string s) -> py_int s = Some num -> (0 < num)%Z ->
  exists out, get_seq_order_for_epoch R py_int (plain_cfg ("default_every_n:" ++ s) seed off) len (Some e) n = Ok out
    /\ Permutation out (seq 0 (Z.to_nat num * (n / Z.to_nat num))).
Proof. exact plain_default_every_n. Qed.
Print Assumptions C02_default_every_n.

Example C02_default_every_n_ex :
  ~ In ":"%char (list_ascii_of_string "3") /\ ex_int "3" = Some 3%Z /\
  get_seq_order_for_epoch ex_rng ex_int (plain_cfg "default_every_n:3" None 0) None (Some 1) 10
  = Ok [0; 3; 6; 1; 4; 7; 2; 5; 8].
Proof. split; [cbn; intros [H|[]]; discriminate|]. split; vm_compute; reflexivity. Qed.

(** ... so it loses sequences whenever n is not a multiple of num. *)
Theorem C02_default_every_n_refuted :
  exists R py_int n out, rng_ok R /\
    get_seq_order_for_epoch R py_int (plain_cfg "default_every_n:3" None 0) None (Some 1) n = Ok out
    /\ ~ Permutation out (seq 0 n).
Proof.
  exists ex_rng, ex_int, 5, [0; 1; 2]. split; [exact ex_rng_ok|]. split; [vm_compute; reflexivity|].
  intros H. apply Permutation_length in H. discriminate.
Qed.
Print Assumptions C02_default_every_n_refuted.

(** C03: 'sorted' and 'sorted_reverse' are the stable sorts by length and by negated length. *)
Theorem C03_sorted : forall R py_int seed off len e n, 0 < n ->
  exists out, get_seq_order_for_epoch R py_int (plain_cfg "sorted" seed off) (Some len) (Some e) n = Ok out
    /\ stably_sorted len (seq 0 n) out.
Proof.
  exact (fun R py_int seed off len e n Hn =>
    ex_intro _ _ (conj (eq_trans (plain_order R py_int "sorted" seed off (Some len) e n Hn)
                                 (base_order_sorted R py_int (plain_cfg "sorted" seed off) len e n eq_refl))
                       (PySortProofs.stable_sort_spec len (seq 0 n)))).
Qed.
Print Assumptions C03_sorted.

Theorem C03_sorted_reverse : forall R py_int seed off len e n, 0 < n ->
  exists out, get_seq_order_for_epoch R py_int (plain_cfg "sorted_reverse" seed off) (Some len) (Some e) n = Ok out
    /\ stably_sorted (fun i => (- len i)%Z) (seq 0 n) out.
Proof.
  exact (fun R py_int seed off len e n Hn =>
    ex_intro _ _ (conj (eq_trans (plain_order R py_int "sorted_reverse" seed off (Some len) e n Hn)
                         (base_order_sorted_reverse R py_int (plain_cfg "sorted_reverse" seed off) len e n eq_refl))
                       (PySortProofs.stable_sort_spec (fun i => (- len i)%Z) (seq 0 n)))).
Qed.
Print Assumptions C03_sorted_reverse.

(** C03: 'laplace...' consists of bins, nearly equal in size, of alternately rising and falling lengths. *)
Theorem C03_laplace : forall R py_int method bins seed off len e n,
  rng_ok R -> 0 < n -> laplace_bins py_int n method bins ->
  exists out parts,
  get_seq_order_for_epoch R py_int (plain_cfg method seed off) (Some len) (Some e) n = Ok out
  /\ out = List.concat parts /\ List.length parts = bins
  /\ (forall i part, nth_error parts i = Some part ->
        if Nat.even i then non_decreasing (map len part) else non_increasing (map len part))
  /\ (forall p q, In p parts -> In q parts -> List.length p <= List.length q + 1).
Proof. exact plain_laplace. Qed.
Print Assumptions C03_laplace.

Example C03_laplace_bins_ex : laplace_bins ex_int 10 "laplace:3" 3 /\ laplace_bins ex_int 20 "laplace:.3:3" 6.
Proof.
  split; [apply (lb_bins ex_int 10 "3" 3%Z "")|apply (lb_bin_size ex_int 20 "3" 3%Z ":3")];
    try reflexivity; try (cbn; intros [H|[]]; discriminate).
  - now left.
  - right. exists "3"%string, 3%Z. repeat split. cbn; intros [H|[]]; discriminate.
Qed.
Example C03_laplace_ex :
  option_map (map ex_len) (match get_seq_order_for_epoch ex_rng ex_int (plain_cfg "laplace:3" None 0)
    (Some ex_len) (Some 1) 10 with Ok l => Some l | Err _ => None end) = Some [0;3;5; 6;4;2; 0;1;3;5]%Z.
Proof. vm_compute. reflexivity. Qed.

(** C04: the P sub-epochs and S shards of one full epoch form one pass over the data, for every ordering method
    and random generator. If one of the sub-epochs can be computed then all can. *)
Theorem C04_full_epoch_is_one_pass : forall R py_int cfg len n k e0 s0 out0,
  rng_ok R -> startswith (seq_ordering cfg) "default_every_n:" = false ->
  0 < partition_epoch cfg -> repeat_epoch cfg <= 1 -> tags_filter cfg = None -> unique_seq_tags cfg = false ->
  In (e0, s0) (full_epoch_jobs k (partition_epoch cfg) (num_shards cfg)) ->
  get_seq_order_for_epoch R py_int (with_shard cfg s0) len (Some e0) n = Ok out0 ->
  exists pieces,
    map (fun es => get_seq_order_for_epoch R py_int (with_shard cfg (snd es)) len (Some (fst es)) n)
        (full_epoch_jobs k (partition_epoch cfg) (num_shards cfg)) = map Ok pieces
    /\ Permutation (List.concat pieces) (seq 0 n)
    /\ (forall p q, In p pieces -> In q pieces -> List.length p <= List.length q + 1).
Proof. exact full_epoch_perm. Qed.
Print Assumptions C04_full_epoch_is_one_pass.

Definition ex_cfg (unique : bool) (filt : option (list string)) : ds_cfg := {|
  seq_ordering := "random"; partition_epoch := 2; repeat_epoch := 1; num_shards := 2; shard_index := 0;
  unique_seq_tags := unique; tags_filter := filt; all_tags := ["a"; "b"; "a"; "c"; "b"; "d"]%string;
  total_num_seqs := 6; fixed_random_seed := None; random_seed_offset := 0 |}.
Example C04_ex :
  map (fun es => get_seq_order_for_epoch ex_rng ex_int (with_shard (ex_cfg false None) (snd es)) None (Some (fst es)) 6)
      (full_epoch_jobs 5 2 2)
  = [Ok [5; 4]; Ok [3; 2]; Ok [1]; Ok [0]].
Proof. vm_compute. reflexivity. Qed.

(** C04: with unique_seq_tags, one full epoch visits exactly the first sequence of each tag (in some
    permutation of the corpus). *)
Theorem C04_unique_tags : forall R py_int cfg len n k e0 s0 out0,
  rng_ok R -> startswith (seq_ordering cfg) "default_every_n:" = false ->
  0 < partition_epoch cfg -> repeat_epoch cfg <= 1 -> tags_filter cfg = None -> unique_seq_tags cfg = true ->
  In (e0, s0) (full_epoch_jobs k (partition_epoch cfg) (num_shards cfg)) ->
  get_seq_order_for_epoch R py_int (with_shard cfg s0) len (Some e0) n = Ok out0 ->
  exists base pieces,
    Permutation base (seq 0 n)
    /\ map (fun es => get_seq_order_for_epoch R py_int (with_shard cfg (snd es)) len (Some (fst es)) n)
        (full_epoch_jobs k (partition_epoch cfg) (num_shards cfg)) = map Ok pieces
    /\ first_occurrences (fun i => nth i (all_tags cfg) ""%string) base (List.concat pieces).
Proof. exact full_epoch_unique. Qed.
Print Assumptions C04_unique_tags.

Example C04_unique_ex :
  map (fun es => get_seq_order_for_epoch ex_rng ex_int (with_shard (ex_cfg true None) (snd es)) None (Some (fst es)) 6)
      (full_epoch_jobs 0 2 2)
  = [Ok [5]; Ok [4]; Ok [3]; Ok [2]].
Proof. vm_compute. reflexivity. Qed.

(** C04: repeat_epoch repeats the sub-epoch, a tag filter keeps exactly the wanted sequences. *)
Theorem C04_repeat_and_filter : forall R py_int cfg len e n out,
  0 < repeat_epoch cfg ->
  get_seq_order_for_epoch R py_int cfg len (Some e) n = Ok out ->
  exists piece,
    get_seq_order_for_epoch R py_int (without_repeat_and_filter cfg) len (Some e) n = Ok piece
    /\ out = filter (fun i => match tags_filter cfg with
                              | None => true
                              | Some wanted => existsb (String.eqb (nth i (all_tags cfg) ""%string)) wanted
                              end) (List.concat (repeat piece (repeat_epoch cfg))).
Proof. exact repeat_and_filter. Qed.
Print Assumptions C04_repeat_and_filter.

(** C04, finding: the filter is applied after partitioning, so a sub-epoch that holds none of the wanted
    sequences stops with an assertion although the full epoch has wanted sequences. *)
Theorem C04_filter_with_partition_refuted :
  exists R py_int cfg n, rng_ok R /\ tags_filter cfg = Some ["d"%string] /\ In "d"%string (all_tags cfg)
    /\ List.length (all_tags cfg) = n
    /\ get_seq_order_for_epoch R py_int cfg None (Some 1) n = Ok [5]
    /\ get_seq_order_for_epoch R py_int cfg None (Some 2) n = Err AssertionError.
Proof.
  exists ex_rng, ex_int, (ex_cfg false (Some ["d"%string])), 6. split; [exact ex_rng_ok|].
  split; [reflexivity|]. split; [cbn; tauto|]. split; [reflexivity|]. split; vm_compute; reflexivity.
Qed.
Print Assumptions C04_filter_with_partition_refuted.

(** C02: default_every_n with a number which is not positive is refused. *)
Theorem C02_default_every_n_refuses : forall R py_int seed off len e n s num,
  ~ In ":"%char (list_ascii_of_string s) -> py_int s = Some num -> (num <= 0)%Z ->
  exists err, get_seq_order_for_epoch R py_int (plain_cfg ("default_every_n:" ++ s) seed off) len (Some e) n = Err err.
Proof. exact plain_default_every_n_refuses. Qed.
Print Assumptions C02_default_every_n_refuses.

(** C04: the random order is that of a generator which is seeded with the number of the full epoch plus the offset, or with the fixed seed. So it is the same
    in each run, and in all parts of a full epoch. *)
Theorem C04_random_order : forall R py_int cfg len e n,
  0 < n -> 0 < e -> 0 < partition_epoch cfg -> seq_ordering cfg = "random"%string ->
  unique_seq_tags cfg = false -> repeat_epoch cfg <= 1 -> tags_filter cfg = None -> shard_index cfg < num_shards cfg ->
  let seed := match fixed_random_seed cfg with Some seed => seed | None => (Z.of_nat ((e - 1) / partition_epoch cfg + 1) + random_seed_offset cfg)%Z end in
  get_seq_order_for_epoch R py_int cfg len (Some e) n
  = apply_partition_epoch_and_sharding (fst (rng_permutation R (Z.of_nat n) (rng_seed R seed))) (partition_epoch cfg) (Some e) (num_shards cfg) (shard_index cfg).
Proof. exact random_order. Qed.
Print Assumptions C04_random_order.
