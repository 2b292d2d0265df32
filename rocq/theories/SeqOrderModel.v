(** Model of the epoch-wise sequence ordering: returnn/datasets/basic.py, class Dataset. *)
From Verif Require Import Base PySort.
From Coq Require Import String Ascii.
Local Open Scope nat_scope.

(** str.split(sep) for a single character separator *)
Fixpoint split_on (c : ascii) (s : string) : list string :=
  match s with
  | EmptyString => [EmptyString]
  | String a s' =>
      if Ascii.eqb a c then EmptyString :: split_on c s'
      else match split_on c s' with
           | [] => [String a EmptyString]
           | h :: t => String a h :: t
           end
  end.
Definition startswith (s p : string) : bool := String.prefix p s.
(** [s[1:]] *)
Definition str_tail (s : string) : string :=
  match s with EmptyString => EmptyString | String _ s' => s' end.

(** numpy.random.RandomState: seeding, permutation(n) (empty for n <= 0) and shuffle(list), threading the
    generator state. The properties hold for every implementation that returns permutations ([rng_ok]). *)
Record rng_api := {
  rng : Type;
  rng_seed : Z -> rng;
  rng_permutation : Z -> rng -> list nat * rng;
  rng_shuffle : list nat -> rng -> list nat * rng
}.

(** The attributes of a Dataset that the ordering reads (basic.py:99-166). [partition_epoch] and [repeat_epoch]
    are stored as [x or 1] there, [tags_filter] is the set loaded from seq_list_filter_file, [all_tags] what
    get_all_tags() returns, [total_num_seqs] what get_total_num_seqs() returns. A callable seq_ordering is
    represented by the string that it returned. *)
Record ds_cfg := {
  seq_ordering : string;
  partition_epoch : nat;
  repeat_epoch : nat;
  num_shards : nat;
  shard_index : nat;
  unique_seq_tags : bool;
  tags_filter : option (list string);
  all_tags : list string;
  total_num_seqs : nat;
  fixed_random_seed : option Z;
  random_seed_offset : Z
}.

(** python [epoch or 1] *)
Definition epoch_or_1 (epoch : option nat) : nat :=
  match epoch with None => 1 | Some 0 => 1 | Some e => e end.

(** basic.py:697-698: functools.reduce(lambda a, x: a + [a[-1] + x], partition_sizes, [0]) *)
Definition cumsum (sizes : list nat) : list nat :=
  fold_left (fun a x => a ++ [last a 0 + x]) sizes [0].

(** basic.py:672-703 Dataset._apply_partition_epoch_and_sharding *)
Definition apply_partition_epoch_and_sharding {A} (seq_index : list A)
    (part_epoch : nat) (epoch : option nat) (n_shards sh_index : nat) : res (list A) :=
  let* _ := assert_ (sh_index <? n_shards) in
  let num_seqs := List.length seq_index in
  let num_partitions := part_epoch * n_shards in
  if part_epoch =? 0 then Err ZeroDivisionError else
  let current_partition := ((epoch_or_1 epoch - 1) mod part_epoch) * n_shards + sh_index in
  let seqs_per_epoch := num_seqs / num_partitions in
  let partition_sizes :=
    repeat (seqs_per_epoch + 1) (num_seqs mod num_partitions)
    ++ repeat seqs_per_epoch (num_partitions - num_seqs mod num_partitions) in
  let* _ := assert_ ((list_sum partition_sizes =? num_seqs) && (List.length partition_sizes =? num_partitions)) in
  let partitions := cumsum partition_sizes in
  let* _ := assert_ (List.length partitions =? num_partitions + 1) in
  let* a := pyget partitions current_partition in
  let* b := pyget partitions (current_partition + 1) in
  let out := pyslice seq_index a b in
  let* sz := pyget partition_sizes current_partition in
  let* _ := assert_ (List.length out =? sz) in
  Ok out.

(** basic.py:709-723 Dataset._get_random_seed_for_epoch *)
Definition get_random_seed_for_epoch (cfg : ds_cfg) (epoch : nat) (num_epochs_fixed : Z) : Z :=
  match fixed_random_seed cfg with
  | Some s => s
  | None =>
      let seed := Z.of_nat (epoch_or_1 (Some epoch)) in
      let seed := if 1 <? partition_epoch cfg then ((seed - 1) / Z.of_nat (partition_epoch cfg) + 1)%Z else seed in
      let seed := if (1 <? num_epochs_fixed)%Z then ((seed - 1) / num_epochs_fixed + 1)%Z else seed in
      (seed + random_seed_offset cfg)%Z
  end.

(** basic.py:560-562: [seq_index[i::num] += d] *)
Definition add_strided (i num d : nat) (l : list nat) : list nat :=
  map (fun jx => if (i <=? fst jx) && ((fst jx - i) mod num =? 0) then snd jx + d else snd jx)
      (combine (seq 0 (List.length l)) l).
(** basic.py:559-562 (num > 0): arange(num_seqs // num).repeat(num), then the loop over i *)
Definition default_every_n (num_seqs num : nat) : list nat :=
  let seq_index := flat_map (fun x => repeat x num) (seq 0 (num_seqs / num)) in
  fold_left (fun acc i => add_strided i num (i * (num_seqs / num)) acc) (seq 1 (num - 1)) seq_index.

Section Order.
  Variable R : rng_api.
  (** python int(str): None stands for the ValueError *)
  Variable py_int : string -> option Z.
  Variable cfg : ds_cfg.
  (** the get_seq_len argument (after basic.py:534-535 replaced it when seq_order_seq_lens_file is set) *)
  Variable get_seq_len : option (nat -> Z).

  Definition to_int (s : string) : res Z :=
    match py_int s with Some z => Ok z | None => Err ValueError end.

  (** basic.py:589-595 and 610-616: number of bins from the first parameter *)
  Definition parse_bins (num_seqs : nat) (tmp : list string) : res Z :=
    match tmp with
    | [] => Ok 2%Z
    | t0 :: _ =>
        if startswith t0 "." then
          let* k := to_int (str_tail t0) in
          if (k =? 0)%Z then Err ZeroDivisionError
          else Ok (Z.max (Z.of_nat num_seqs / k) 2)
        else to_int t0
    end.
  (** basic.py:579-582 and 617-620: second parameter *)
  Definition parse_nth (tmp : list string) : res Z :=
    match tmp with
    | _ :: t1 :: _ => to_int t1
    | _ => Ok 1%Z
    end.

  (** basic.py:598-605: cut out each bin, optionally shuffle it *)
  Fixpoint sort_bin_parts (x2 : bool) (bins : nat) (seq_index : list nat) (bin_ids : list nat) (g : rng R)
    : list (list nat) :=
    match bin_ids with
    | [] => []
    | i :: bin_ids' =>
        let n := List.length seq_index in
        let part := if i =? bins - 1 then skipn (i * n / bins) seq_index
                    else pyslice seq_index (i * n / bins) ((i + 1) * n / bins) in
        if x2 then
          let '(part', g') := rng_shuffle R part g in
          part' :: sort_bin_parts x2 bins seq_index bin_ids' g'
        else part :: sort_bin_parts x2 bins seq_index bin_ids' g
    end.

  (** basic.py:625-632: one laplace bin *)
  Definition laplace_part (seq_lens : list Z) (bins : nat) (seq_index : list nat) (i : nat) : list nat :=
    let n := List.length seq_index in
    let part := pyslice seq_index (i * n / bins) ((i + 1) * n / bins) in
    let seq_lens_ := take 0%Z seq_lens part in
    let seq_lens_ := if i mod 2 =? 1 then map Z.opp seq_lens_ else seq_lens_ in
    take 0 part (argsort seq_lens_).

  (** basic.py:555-637: the ordering methods, before uniqueness, partitioning, repetition and filtering.
      numpy.concatenate([]) raises ValueError. *)
  Definition base_order (epoch num_seqs : nat) : res (list nat) :=
    let method := seq_ordering cfg in
    if String.eqb method "default" then Ok (seq 0 num_seqs)
    else if startswith method "default_every_n:" then
      match split_on ":"%char method with
      | [_; s] =>
          let* num := to_int s in
          if (num =? 0)%Z then Err ZeroDivisionError
          else if (num <? 0)%Z then Err ValueError
          else Ok (default_every_n num_seqs (Z.to_nat num))
      | _ => Err ValueError
      end
    else if String.eqb method "reverse" then Ok (rev (seq 0 num_seqs))
    else if String.eqb method "sorted" || String.eqb method "sorted_reverse" then
      match get_seq_len with
      | None => Err AssertionError
      | Some len =>
          let reverse := (if String.eqb method "sorted_reverse" then -1 else 1)%Z in
          Ok (argsort (map (fun i => (reverse * len i)%Z) (seq 0 num_seqs)))
      end
    else if startswith method "random" then
      let* nth := match split_on ":"%char method with
                  | _ :: s :: _ => to_int s
                  | _ => Ok 1%Z
                  end in
      let g := rng_seed R (get_random_seed_for_epoch cfg epoch nth) in
      Ok (fst (rng_permutation R (Z.of_nat num_seqs) g))
    else if startswith method "sort_bin_shuffle" then
      match get_seq_len with
      | None => Err AssertionError
      | Some len =>
          let tmp := tl (split_on ":"%char method) in
          let* nth := parse_nth tmp in
          let g := rng_seed R (get_random_seed_for_epoch cfg epoch nth) in
          let '(seq_index, g) := rng_permutation R (Z.of_nat num_seqs) g in
          let seq_index := stable_sort_by len seq_index in
          let* bins := parse_bins num_seqs tmp in
          let '(bin_ids, g) := rng_permutation R bins g in
          match bin_ids with
          | [] => Err ValueError
          | _ => Ok (List.concat (sort_bin_parts (startswith method "sort_bin_shuffle_x2") (Z.to_nat bins)
                               seq_index bin_ids g))
          end
      end
    else if startswith method "laplace" then
      match get_seq_len with
      | None => Err AssertionError
      | Some len =>
          let tmp := tl (split_on ":"%char method) in
          let* bins := parse_bins num_seqs tmp in
          let* nth := parse_nth tmp in
          let seq_lens := map len (seq 0 num_seqs) in
          let g := rng_seed R (get_random_seed_for_epoch cfg epoch nth) in
          let '(seq_index, g) := rng_permutation R (Z.of_nat num_seqs) g in
          if (bins <=? 0)%Z then Err ValueError
          else Ok (List.concat (map (laplace_part seq_lens (Z.to_nat bins) seq_index) (seq 0 (Z.to_nat bins))))
      end
    else Err ValueError.

  Definition mem_str (s : string) (l : list string) : bool := existsb (String.eqb s) l.

  (** basic.py:639-645: keep the first occurrence of every tag *)
  Fixpoint unique_by_tag (used : list string) (seq_index : list nat) : res (list nat) :=
    match seq_index with
    | [] => Ok []
    | i :: rest =>
        let* tag := pyget (all_tags cfg) i in
        let* out := unique_by_tag (tag :: used) rest in
        Ok (if mem_str tag used then out else i :: out)
    end.

  (** basic.py:661: [i for i in seq_index if all_seq_tags[i] in self.seq_tags_filter] *)
  Fixpoint filter_by_tag (wanted : list string) (seq_index : list nat) : res (list nat) :=
    match seq_index with
    | [] => Ok []
    | i :: rest =>
        let* tag := pyget (all_tags cfg) i in
        let* out := filter_by_tag wanted rest in
        Ok (if mem_str tag wanted then i :: out else out)
    end.

  (** basic.py:511-670 Dataset.get_seq_order_for_epoch *)
  Definition get_seq_order_for_epoch (epoch : option nat) (num_seqs : nat) : res (list nat) :=
    match epoch with
    | None => Ok []
    | Some ep =>
        let* _ := assert_ (0 <? num_seqs) in
        let* seq_index := base_order ep num_seqs in
        let* seq_index := if unique_seq_tags cfg then unique_by_tag [] seq_index else Ok seq_index in
        let* seq_index :=
          if (1 <? partition_epoch cfg) || (1 <? num_shards cfg)
          then apply_partition_epoch_and_sharding seq_index (partition_epoch cfg) epoch
                 (num_shards cfg) (shard_index cfg)
          else Ok seq_index in
        let seq_index := if 1 <? repeat_epoch cfg then List.concat (repeat seq_index (repeat_epoch cfg)) else seq_index in
        match tags_filter cfg with
        | None => Ok seq_index
        | Some wanted =>
            let* _ := assert_ (negb (List.length seq_index =? 0)) in
            let* _ := assert_ ((List.length (all_tags cfg) =? num_seqs) && (num_seqs =? total_num_seqs cfg)) in
            let* out := filter_by_tag wanted seq_index in
            let* _ := assert_ (negb (List.length out =? 0)) in
            Ok out
        end
    end.
End Order.
