(** Specification vocabulary for the sequence ordering properties (independent of the model's helpers). *)
From Verif Require Import Base SeqOrderModel.
From Coq Require Import Sorted Ascii String.

(** All (epoch, shard) pairs that belong to full epoch number [k] (counted from 0) when a full epoch has [P]
    sub-epochs (epochs are numbered from 1) and the data is split over [S] shards. *)
Definition full_epoch_jobs (k P S : nat) : list (nat * nat) :=
  list_prod (seq (k * P + 1) P) (seq 0 S).

(** The contract of the random generator: permutation(n) permutes 0..n-1, shuffle permutes its argument. *)
Definition rng_ok (R : rng_api) : Prop :=
  (forall n g, Permutation (fst (rng_permutation R n g)) (seq 0 (Z.to_nat n))) /\
  (forall l g, Permutation (fst (rng_shuffle R l g)) l).

Definition non_decreasing (l : list Z) : Prop := StronglySorted Z.le l.
Definition non_increasing (l : list Z) : Prop := StronglySorted Z.ge l.

(** [out] results from [inp] by leaving out elements *)
Inductive subseq {A} : list A -> list A -> Prop :=
| subseq_nil : subseq [] []
| subseq_take x out inp : subseq out inp -> subseq (x :: out) (x :: inp)
| subseq_drop x out inp : subseq out inp -> subseq out (x :: inp).

(** [out] keeps, in order, exactly the elements of [inp] that have no earlier element with the same tag. *)
Definition first_occurrences (tag : nat -> string) (inp out : list nat) : Prop :=
  subseq out inp
  /\ NoDup (map tag out)
  /\ forall i, In i out <-> exists l1 l2, inp = l1 ++ i :: l2 /\ ~ In (tag i) (map tag l1).

(** plain configuration: nothing but the ordering itself *)
Definition plain_cfg (method : string) (seed : option Z) (off : Z) : ds_cfg := {|
  seq_ordering := method; partition_epoch := 1; repeat_epoch := 1; num_shards := 1; shard_index := 0;
  unique_seq_tags := false; tags_filter := None; all_tags := []; total_num_seqs := 0;
  fixed_random_seed := seed; random_seed_offset := off |}.

(** the same configuration for another shard *)
Definition with_shard (cfg : ds_cfg) (s : nat) : ds_cfg := {|
  seq_ordering := seq_ordering cfg; partition_epoch := partition_epoch cfg; repeat_epoch := repeat_epoch cfg;
  num_shards := num_shards cfg; shard_index := s; unique_seq_tags := unique_seq_tags cfg;
  tags_filter := tags_filter cfg; all_tags := all_tags cfg; total_num_seqs := total_num_seqs cfg;
  fixed_random_seed := fixed_random_seed cfg; random_seed_offset := random_seed_offset cfg |}.

(** the same configuration without repetition and tag filter *)
Definition without_repeat_and_filter (cfg : ds_cfg) : ds_cfg := {|
  seq_ordering := seq_ordering cfg; partition_epoch := partition_epoch cfg; repeat_epoch := 1;
  num_shards := num_shards cfg; shard_index := shard_index cfg; unique_seq_tags := unique_seq_tags cfg;
  tags_filter := None; all_tags := all_tags cfg; total_num_seqs := total_num_seqs cfg;
  fixed_random_seed := fixed_random_seed cfg; random_seed_offset := random_seed_offset cfg |}.

Definition no_colon (s : string) : Prop := ~ In ":"%char (list_ascii_of_string s).
(** an optional second parameter [:nth] *)
Definition nth_suffix (py_int : string -> option Z) (rest : string) : Prop :=
  rest = ""%string \/ exists t nth, rest = (":" ++ t)%string /\ no_colon t /\ py_int t = Some nth.
(** The number of bins that a method string 'laplace', 'laplace:<bins>[:nth]' or 'laplace:.<seqs per bin>[:nth]'
    asks for. *)
Inductive laplace_bins (py_int : string -> option Z) (n : nat) : string -> nat -> Prop :=
| lb_default : laplace_bins py_int n "laplace" 2
| lb_bins s b rest : no_colon s -> startswith s "." = false -> py_int s = Some b -> (0 < b)%Z ->
    nth_suffix py_int rest -> laplace_bins py_int n ("laplace:" ++ s ++ rest) (Z.to_nat b)
| lb_bin_size s k rest : no_colon s -> py_int s = Some k -> (0 < k)%Z ->
    nth_suffix py_int rest -> laplace_bins py_int n ("laplace:." ++ s ++ rest) (max (n / Z.to_nat k) 2).
