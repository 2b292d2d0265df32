(** Model of the prefetching dataset worker processes: returnn/datasets/distrib_files.py:545-676
    (_worker_proc_loop) and returnn/datasets/multi_proc.py:220-388 (MultiProcDataset._worker_proc_loop, the same
    cache logic), and of the parent side of MultiProcDataset (multi_proc.py:398-467).

    The sub dataset of one epoch is the list of its sequences: is_less_than_num_seqs(n) is [n < length],
    load_seqs + get_tag + get_data give the n-th entry. A DatasetSeq is a pair of seq_idx and content. *)
From Verif Require Import Base.

Section Worker.
  Variable D : Type.
  Variable buffer_size : nat.

  (** the local variables [cache] and [next_seq_idx]; [ds] = None before the first init_seq_order message and
      after finish_epoch ([got_init_seq_order] is [ds <> None]) *)
  Record wstate := { cache : list (nat * D); next_seq_idx : nat; ds : option (list D) }.
  Definition w_init : wstate := {| cache := []; next_seq_idx := 0; ds := None |}.

  (** _add_to_cache, distrib_files.py:568-582 *)
  Definition add_to_cache (l : list D) (s : wstate) : bool * wstate :=
    if buffer_size <=? length (cache s) then (false, s)
    else match nth_error l (next_seq_idx s) with
         | None => (false, s)
         | Some d => (true, {| cache := cache s ++ [(next_seq_idx s, d)]; next_seq_idx := S (next_seq_idx s);
                               ds := ds s |})
         end.

  (** the [for seq in cache] loop of _get_from_cache, distrib_files.py:590-594 *)
  Fixpoint find_in_cache (c : list (nat * D)) (seq_idx : nat) : res (option (nat * D)) :=
    match c with
    | [] => Err AssertionError
    | x :: c' =>
        let* _ := assert_ (fst x <=? seq_idx) in
        if fst x =? seq_idx then Ok (Some x) else find_in_cache c' seq_idx
    end.
  (** _get_from_cache, distrib_files.py:585-594 *)
  Definition get_from_cache (c : list (nat * D)) (seq_idx : nat) : res (option (nat * D)) :=
    match rev c with
    | [] => Ok None
    | lst :: _ => if fst lst <? seq_idx then Ok None else find_in_cache c seq_idx
    end.

  (** the [while True] loop of _get, distrib_files.py:608-616. Each round grows the cache, so [buffer_size + 1]
      rounds are enough. *)
  Fixpoint get_loop (fuel : nat) (l : list D) (seq_idx : nat) (s : wstate) : res (wstate * option (nat * D)) :=
    match fuel with
    | 0 => Err OutOfFuel
    | S fuel' =>
        match add_to_cache l s with
        | (false, _) => Err OtherException (* buffer too small *)
        | (true, s') =>
            match rev (cache s') with
            | [] => Err IndexError
            | lst :: _ =>
                let* _ := assert_ (fst lst <=? seq_idx) in
                if fst lst =? seq_idx then Ok (s', Some lst) else get_loop fuel' l seq_idx s'
            end
        end
    end.

  (** _get, distrib_files.py:597-616 *)
  Definition get (l : list D) (seq_idx : nat) (s : wstate) : res (wstate * option (nat * D)) :=
    let* _ := match cache s with
              | x :: _ => if seq_idx <? fst x then Err OtherException (* cannot go backwards *) else Ok tt
              | [] => Ok tt
              end in
    let* r := get_from_cache (cache s) seq_idx in
    match r with
    | Some x => Ok (s, Some x)
    | None =>
        if seq_idx <? length l then
          let* _ := assert_ (next_seq_idx s <=? seq_idx) in
          get_loop (S buffer_size) l seq_idx s
        else Ok (s, None)
    end.

  (** distrib_files.py:628-629: [while cache and cache[0].seq_idx < seq_idx: cache.pop(0)] *)
  Fixpoint pop_older (c : list (nat * D)) (seq_idx : nat) : list (nat * D) :=
    match c with
    | [] => []
    | x :: c' => if fst x <? seq_idx then pop_older c' seq_idx else c
    end.

  (** the messages of the parent; [MInit l] stands for init_seq_order of an epoch whose sequences are [l] *)
  Inductive msg := MInit (l : list D) | MGet (seq_idx : nat) | MFinish.
  Inductive reply := RNum (n : nat) | RSeq (x : option (nat * D)).

  (** distrib_files.py:621-624: prefetch until there is a message ([k] polls without one) or nothing to do *)
  Fixpoint prefetch (k : nat) (s : wstate) : wstate :=
    match k, ds s with
    | S k', Some l => match add_to_cache l s with (true, s') => prefetch k' s' | (false, _) => s end
    | _, _ => s
    end.

  (** distrib_files.py:619-676: the reaction to one message. get_data_seq without init_seq_order has no defined
      dataset state in the code (Exception here). *)
  Definition handle (m : msg) (s : wstate) : res (wstate * list reply) :=
    match m with
    | MInit l => Ok ({| cache := []; next_seq_idx := 0; ds := Some l |}, [RNum (length l)])
    | MFinish => Ok (w_init, [])
    | MGet i =>
        match ds s with
        | None => Err OtherException
        | Some l =>
            let* (s', x) := get l i {| cache := pop_older (cache s) i; next_seq_idx := next_seq_idx s; ds := ds s |} in
            Ok (s', [RSeq x])
        end
    end.

  (** The worker loop: each message comes with the number of polls before it arrives. *)
  Fixpoint worker (ms : list (nat * msg)) (s : wstate) : res (wstate * list reply) :=
    match ms with
    | [] => Ok (s, [])
    | (k, m) :: ms' =>
        let* (s, r) := handle m (prefetch k s) in
        let* (s, rs) := worker ms' s in
        Ok (s, r ++ rs)
    end.
End Worker.

(** * The parent of MultiProcDataset *)
Section MultiProc.
  Variable D : Type.
  Variable buffer_size : nat.
  (** content of a sequence: data and complete_frac (None if unknown) *)
  Let C := (D * option Z)%type.
  Record mstate := { wstates : list (wstate C); cur_max_complete_frac : Z }.

  (** [l[w::W]] *)
  Definition pystride {A} (l : list A) (w W : nat) : list A :=
    flat_map (fun ix => if (w <=? fst ix) && ((fst ix - w) mod W =? 0) then [snd ix] else [])
             (combine (seq 0 (length l)) l).

  (** multi_proc.py:349-361: the shards in "seq_order" mode *)
  Definition seq_order_shards {A} (W : nat) (order : list A) : list (list A) :=
    map (fun w => pystride order w W) (seq 0 W).

  (** while the parent works, each worker polls [sched w] times *)
  Definition prefetch_all (sched : nat -> nat) (ws : list (wstate C)) : list (wstate C) :=
    map (fun iw => prefetch C buffer_size (sched (fst iw)) (snd iw)) (combine (seq 0 (length ws)) ws).
  (** multi_proc.py:398-436 init_seq_order: worker w starts the epoch with the sequences [shards[w]] *)
  Definition mp_init (shards : list (list C)) (m : mstate) : mstate :=
    {| wstates := map (fun l => {| cache := []; next_seq_idx := 0; ds := Some l |}) shards;
       cur_max_complete_frac := 0%Z |}.
  Fixpoint set_nth {A} (l : list A) (i : nat) (x : A) : list A :=
    match l, i with
    | [], _ => []
    | _ :: l', 0 => x :: l'
    | y :: l', S i' => y :: set_nth l' i' x
    end.
  (** multi_proc.py:438-456 _collect_single_seq; max(None, x) raises TypeError *)
  Definition collect_single_seq (seq_idx : nat) (m : mstate) : res (mstate * option (nat * D * Z)) :=
    let W := length (wstates m) in
    if W =? 0 then Err ZeroDivisionError else
    let* s := pyget (wstates m) (seq_idx mod W) in
    let* (s', r) := handle C buffer_size (MGet C (seq_idx / W)) s in
    let ws := set_nth (wstates m) (seq_idx mod W) s' in
    match r with
    | [RSeq _ None] => Ok ({| wstates := ws; cur_max_complete_frac := cur_max_complete_frac m |}, None)
    | [RSeq _ (Some (_, (d, frac)))] =>
        match frac with
        | None => Err TypeError
        | Some f =>
            let f' := Z.max f (cur_max_complete_frac m) in
            Ok ({| wstates := ws; cur_max_complete_frac := f' |}, Some (seq_idx, d, f'))
        end
    | _ => Err AssertionError
    end.

  (** read the sequences [idxs] one after the other, with arbitrary prefetching in between *)
  Fixpoint mp_read (reads : list ((nat -> nat) * nat)) (m : mstate) : res (mstate * list (option (nat * D * Z))) :=
    match reads with
    | [] => Ok (m, [])
    | (sched, i) :: reads' =>
        let m := {| wstates := prefetch_all sched (wstates m); cur_max_complete_frac := cur_max_complete_frac m |} in
        let* (m, x) := collect_single_seq i m in
        let* (m, xs) := mp_read reads' m in
        Ok (m, x :: xs)
    end.
End MultiProc.
