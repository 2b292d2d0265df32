(** Model of [CachedDataset2]: /repo/returnn/datasets/cached2.py:20-220.

    The derived class is given by the list [seqs] of the sequences of the epoch: its [_collect_single_seq(i)] returns the sequence, or None behind the end. [known] tells whether it sets [_num_seqs] in [init_seq_order]. A sequence is any value, with its number of frames [frames] (for one data key). [collected] is a log of the calls of [_collect_single_seq], not part of the code. [shuffle_frames_of_nseqs] is 0. *)
From Verif Require Import Base.
Local Open Scope nat_scope. Local Open Scope list_scope.

Section Cached2.
  Context {A : Type}.
  Variable seqs : list A.
  Variable frames : A -> nat.

  Record cache := Cache { expected_load_seq_start : nat; added_data : list (nat * A); reached_final_seq : bool; c_num_seqs : option nat; num_timesteps_accumulated : nat; collected : list nat }.
  (** lines 43-62 *)
  Definition init_seq_order (known : bool) : cache := Cache 0 [] false (if known then Some (length seqs) else None) 0 [].
  (** lines 64-73 *)
  Fixpoint cleanup_old_seqs (l : list (nat * A)) (seq_idx_end : nat) : list (nat * A) :=
    match l with
    | [] => []
    | (i, x) :: l' => if seq_idx_end <=? i then l else cleanup_old_seqs l' seq_idx_end
    end.
  (** lines 75-83 *)
  Fixpoint get_seq (l : list (nat * A)) (seq_idx : nat) : option A :=
    match l with
    | [] => None
    | (i, x) :: l' => if i =? seq_idx then Some x else get_seq l' seq_idx
    end.
  Definition last_idx (l : list (nat * A)) : option nat := match rev l with (i, _) :: _ => Some i | [] => None end.
  (** lines 122-123: [range(start, end)], without those that are None *)
  Definition collect_range (start stop : nat) : list (nat * A) :=
    flat_map (fun i => match nth_error seqs i with Some x => [(i, x)] | None => [] end) (seq start (stop - start)).
  (** lines 106-125 *)
  Definition load_seqs_ (s : cache) (start stop : nat) : res cache :=
    let* _ := assert_ (expected_load_seq_start s <=? start) in
    let '(added, expected) := if expected_load_seq_start s <? start then (cleanup_old_seqs (added_data s) start, start) else (added_data s, expected_load_seq_start s) in
    let start := match last_idx added with Some i => Nat.max (i + 1) start | None => start end in
    let new := collect_range start stop in
    Ok (Cache expected (added ++ new) (reached_final_seq s) (c_num_seqs s) (num_timesteps_accumulated s + list_sum (map (fun '(_, x) => frames x) new)) (collected s ++ seq start (stop - start))).
  (** /repo/returnn/datasets/basic.py:440-460; [is_cached] is always False here *)
  Definition load_seqs (s : cache) (start stop : nat) : res cache :=
    let* _ := assert_ (start <=? stop) in load_seqs_ s start stop.
  (** lines 127-149, after [init_seq_order], so [self.epoch] is set *)
  Definition is_less_than_num_seqs (s : cache) (n : nat) : cache * res bool :=
    if n <? expected_load_seq_start s then (s, Ok true) else
    match c_num_seqs s with
    | Some num => (s, Ok (n <? num))
    | None =>
        match load_seqs_ s (expected_load_seq_start s) (n + 1) with
        | Err e => (s, Err e)
        | Ok s' =>
            match get_seq (added_data s') n with
            | Some _ => (s', Ok true)
            | None =>
                match last_idx (added_data s') with
                | None => (s', Err AssertionError)
                | Some i =>
                    let s'' := Cache (expected_load_seq_start s') (added_data s') (reached_final_seq s') (Some (i + 1)) (num_timesteps_accumulated s') (collected s') in
                    if i + 1 <=? n then (Cache (expected_load_seq_start s') (added_data s') true (Some (i + 1)) (num_timesteps_accumulated s') (collected s'), Ok false)
                    else (s'', Err AssertionError)
                end
            end
        end
    end.
  (** lines 185-190; reading an attribute of None raises AttributeError *)
  Definition get_data (s : cache) (seq_idx : nat) : res A :=
    match get_seq (added_data s) seq_idx with Some x => Ok x | None => Err OtherException end.
  (** lines 174-183 *)
  Definition get_seq_length (s : cache) (seq_idx : nat) : cache * res nat :=
    match assert_ (expected_load_seq_start s <=? seq_idx) with
    | Err e => (s, Err e)
    | Ok _ =>
        match load_seqs s (expected_load_seq_start s) (seq_idx + 1) with
        | Err e => (s, Err e)
        | Ok s' => (s', let* x := get_data s' seq_idx in Ok (frames x))
        end
    end.
  (** lines 158-166, when [_num_timesteps] is not set in advance *)
  Definition get_num_timesteps (s : cache) : res nat :=
    let* _ := assert_ (reached_final_seq s) in Ok (num_timesteps_accumulated s).
End Cached2.
Arguments cache : clear implicits.
