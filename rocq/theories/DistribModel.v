(** Model of the file distribution: returnn/datasets/distrib_files.py, class DistributeFilesDataset. *)
From Verif Require Import Base SeqOrderModel.
From Coq Require Import String.
Local Open Scope nat_scope.

(** The python float operations that the distribution uses. The properties hold for every implementation, hence
    for every rounding. *)
Record float_api := {
  flt : Type;
  fdiv : Z -> nat -> flt;            (** [a / n] for [n <> 0] *)
  f_le : Z -> flt -> bool;           (** [a <= x] *)
  f_closer : Z -> Z -> flt -> bool   (** [abs(a - x) <= abs(b - x)] *)
}.

(** python [a / n]: raises for n == 0 *)
Definition pydiv (FL : float_api) (a : Z) (n : nat) : res (flt FL) :=
  if n =? 0 then Err ZeroDivisionError else Ok (fdiv FL a n).

(** [bins[i].append(x)]: IndexError outside *)
Fixpoint bin_append {A} (bins : list (list A)) (i : nat) (x : A) : res (list (list A)) :=
  match bins, i with
  | [], _ => Err IndexError
  | b :: bins', 0 => Ok ((b ++ [x]) :: bins')
  | b :: bins', S i' => let* r := bin_append bins' i' x in Ok (b :: r)
  end.
Definition nonempty {A} (l : list A) : bool := match l with [] => false | _ => true end.

Section Distribute.
  Variable FL : float_api.
  Variable F : Type.
  (** file_sizes[_get_key_for_file_tree(f)] *)
  Variable size_of : F -> Z.
  (** the local variables of the loop, distrib_files.py:383-386 *)
  Record dstate := {
    files_per_bin : list (list F);
    bin_idx : nat;
    size_taken : Z;
    total_size_taken : Z;
    avg_size : flt FL
  }.

  (** distrib_files.py:387-421: the loop body, [num_files] = len(files_order), [i] the loop index *)
  Definition dist_step (num_bins num_files : nat) (total_size : Z) (i : nat) (f : F) (s : dstate) : res dstate :=
    let size := size_of f in
    let num_remaining := num_files - i in
    let total := (total_size_taken s + size)%Z in
    let* cur := pyget (files_per_bin s) (bin_idx s) in
    if num_remaining + bin_idx s + 1 <=? num_bins then
      (* num_remaining <= num_bins - bin_idx - 1: all remaining sub epochs must be filled *)
      let* _ := assert_ (nonempty cur) in
      let* avg := pydiv FL (total_size - total) (num_bins - (bin_idx s + 1)) in
      let* bins := bin_append (files_per_bin s) (bin_idx s + 1) f in
      Ok {| files_per_bin := bins; bin_idx := bin_idx s + 1; size_taken := size;
            total_size_taken := total; avg_size := avg |}
    else if bin_idx s + 1 =? num_bins then
      let* bins := bin_append (files_per_bin s) (bin_idx s) f in
      Ok {| files_per_bin := bins; bin_idx := bin_idx s; size_taken := (size_taken s + size)%Z;
            total_size_taken := total; avg_size := avg_size s |}
    else if f_le FL (size_taken s + size) (avg_size s) then
      let* bins := bin_append (files_per_bin s) (bin_idx s) f in
      Ok {| files_per_bin := bins; bin_idx := bin_idx s; size_taken := (size_taken s + size)%Z;
            total_size_taken := total; avg_size := avg_size s |}
    else
      let here := negb (nonempty cur) || f_closer FL (size_taken s + size) (size_taken s) (avg_size s) in
      let* bins := bin_append (files_per_bin s) (if here then bin_idx s else bin_idx s + 1) f in
      let* avg := pydiv FL (total_size - total) (num_bins - (bin_idx s + 1)) in
      Ok {| files_per_bin := bins; bin_idx := bin_idx s + 1; size_taken := if here then 0%Z else size;
            total_size_taken := total; avg_size := avg |}.

  Fixpoint dist_loop (num_bins num_files : nat) (total_size : Z) (i : nat) (files : list F) (s : dstate)
    : res dstate :=
    match files with
    | [] => Ok s
    | f :: files' =>
        let* s' := dist_step num_bins num_files total_size i f s in
        dist_loop num_bins num_files total_size (S i) files' s'
    end.

  (** distrib_files.py:360-423 DistributeFilesDataset._distribute_evenly_by_size *)
  Definition distribute_evenly_by_size (num_bins : nat) (files_order : list F) : res (list (list F)) :=
    let total_size := fold_left (fun a f => (a + size_of f)%Z) files_order 0%Z in
    let* avg := pydiv FL total_size num_bins in
    let* _ := assert_ (num_bins <=? List.length files_order) in
    let* s := dist_loop num_bins (List.length files_order) total_size 0 files_order
                {| files_per_bin := repeat [] num_bins; bin_idx := 0; size_taken := 0%Z;
                   total_size_taken := 0%Z; avg_size := avg |} in
    let* _ := assert_ (forallb nonempty (files_per_bin s)) in
    Ok (files_per_bin s).

  (** * distrib_files.py:250-323 init_seq_order

      The dataset object between the calls: _files_order_cache (full epoch -> the bins of this shard) and
      _workers (sub epoch -> the files that its worker process was started with). [files] is self.files,
      [cfg] holds seq_ordering, partition_epoch and the seeds, num_shards and shard_index, [preload] is
      preload_next_n_sub_epochs. *)
  Variable R : rng_api.
  Variable cfg : ds_cfg.
  Variable files : list F.
  Variable preload : nat.
  Record dfd := { order_cache : list (nat * list (list F)); workers : list (nat * list F) }.
  Definition dfd_init : dfd := {| order_cache := []; workers := [] |}.

  Definition lookup {B} (k : nat) (d : list (nat * B)) : option B :=
    option_map snd (find (fun kv => fst kv =? k) d).

  (** distrib_files.py:281-293; shuffle acts on positions *)
  Definition files_order_flat (full_epoch : nat) : res (list F) :=
    if String.eqb (seq_ordering cfg) "default" then Ok files
    else if String.eqb (seq_ordering cfg) "random" then
      let g := rng_seed R (get_random_seed_for_epoch cfg (full_epoch * partition_epoch cfg + 1) 1) in
      mapM (pyget files) (fst (rng_shuffle R (seq 0 (List.length files)) g))
    else Err ValueError.
  (** distrib_files.py:294-301 *)
  Definition bins_of_full_epoch (full_epoch : nat) : res (list (list F)) :=
    let* order := files_order_flat full_epoch in
    let* bins := distribute_evenly_by_size (num_shards cfg * partition_epoch cfg) order in
    let base := partition_epoch cfg * shard_index cfg in
    Ok (pyslice bins base (base + partition_epoch cfg)).

  (** distrib_files.py:276-301: fill the cache for epochs ep, ep+1, ... *)
  Fixpoint fill_order_cache (eps : list nat) (c : list (nat * list (list F))) : res (list (nat * list (list F))) :=
    match eps with
    | [] => Ok c
    | ep :: eps' =>
        let full := (ep - 1) / partition_epoch cfg in
        match lookup full c with
        | Some _ => fill_order_cache eps' c
        | None => let* bins := bins_of_full_epoch full in fill_order_cache eps' ((full, bins) :: c)
        end
    end.
  (** distrib_files.py:308-323: start the missing workers *)
  Fixpoint fill_workers (eps : list nat) (c : list (nat * list (list F))) (w : list (nat * list F))
    : res (list (nat * list F)) :=
    match eps with
    | [] => Ok w
    | ep :: eps' =>
        match lookup ep w with
        | Some _ => fill_workers eps' c w
        | None =>
            match lookup ((ep - 1) / partition_epoch cfg) c with
            | None => Err KeyError
            | Some order =>
                let* fs := pyget order ((ep - 1) mod partition_epoch cfg) in
                fill_workers eps' c ((ep, fs) :: w)
            end
        end
    end.
  (** distrib_files.py:250-323 for epoch >= 1; returns the files that the current sub epoch is read from.
      partition_epoch == 0 is not possible (basic.py stores [partition_epoch or 1]). *)
  Definition init_seq_order (epoch : nat) (d : dfd) : res (dfd * list F) :=
    let full := (epoch - 1) / partition_epoch cfg in
    let c := filter (fun kv => negb (fst kv <? full)) (order_cache d) in
    let eps := seq epoch (preload + 1) in
    let* c := fill_order_cache eps c in
    let w := filter (fun kv => negb (fst kv <? epoch)) (workers d) in
    let* w := fill_workers eps c w in
    match lookup epoch w with
    | None => Err KeyError
    | Some fs => Ok ({| order_cache := c; workers := w |}, fs)
    end.
  (** distrib_files.py:436-447 finish_epoch. The base class sets self.epoch = None first (basic.py:750), so
      without free_resources [self.epoch in self._workers] is false and nothing happens. *)
  Definition finish_epoch (free_resources : bool) (d : dfd) : dfd :=
    if free_resources then dfd_init else d.

  (** What a user does with the dataset: start a sub epoch or finish the current one. *)
  Inductive dop := OpInit (epoch : nat) | OpFinish (free_resources : bool).
  Fixpoint run_ops (ops : list dop) (d : dfd) : res (dfd * list (nat * list F)) :=
    match ops with
    | [] => Ok (d, [])
    | OpInit e :: ops' =>
        let* (d, fs) := init_seq_order e d in
        let* (d, out) := run_ops ops' d in
        Ok (d, (e, fs) :: out)
    | OpFinish free :: ops' => run_ops ops' (finish_epoch free d)
    end.
End Distribute.
