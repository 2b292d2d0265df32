(** Model of the buffered reordering of streams: [ShufflingDataPipe], returnn/torch/data/pipeline.py:504-590, and
    [LaplaceOrdering], returnn/datasets/postprocessing.py:388-446. *)
From Coq Require Import String.
From Verif Require Import Base PyDict PySort BatchPipeModel.

(** pipeline.py:559-566 and postprocessing.py:426-433: after each of [n] yielded items one item is pulled from the
    input, until the input has ended. Returns the pulled items, the rest of the input and [has_ended]. *)
Fixpoint pull {A} (n : nat) (rest : list A) (ended : bool) : list A * list A * bool :=
  match n with
  | 0 => ([], rest, ended)
  | S n' =>
      if ended then pull n' rest ended else
      match rest with
      | [] => pull n' rest true
      | x :: rest' => let '(xs, r, e) := pull n' rest' ended in (x :: xs, r, e)
      end
  end.

Section Buffered.
  Context {A : Type}.
  Variable size : nat.
  (** what happens with the buffer in the n-th round before its items are yielded *)
  Variable round : nat -> list A -> res (list A).

  (** pipeline.py:545-573 and postprocessing.py:414-440: the main loop, which is the same in both classes *)
  Fixpoint buffered_loop (fuel n : nat) (buf rest : list A) (ended : bool) : gen A :=
    match fuel with
    | 0 => gen_raise OutOfFuel
    | S fuel' =>
        match round n buf with
        | Err e => gen_raise e
        | Ok out =>
            let '(next, rest', ended') := pull (List.length out) rest ended in
            let g := if List.length out <? size
                     then match assert_ (ended' && match next with [] => true | _ => false end) with
                          | Ok _ => gen_end | Err e => gen_raise e end
                     else buffered_loop fuel' (S n) next rest' ended' in
            (out ++ fst g, snd g)
        end
    end.
  (** pipeline.py:540-543, postprocessing.py:409-413. (For [ShufflingDataPipe] the framework calls [reset] before each
      iteration, pipeline.py:583-586, so both buffers are empty at first.) The fuel always suffices, as we prove. *)
  Definition buffered (data : list A) : gen A :=
    buffered_loop (2 + List.length data) 0 (firstn size data) (skipn size data) false.
End Buffered.

Section Shuffle.
  Context {X : Type}.
  (** a batch is a list of sequences *)
  Notation batch := (list (seqd X)).
  Variable buffer_size : nat.
  Variable mono_keys : list string.
  (** [self._rng.shuffle] at the n-th call *)
  Variable shuffle : nat -> list batch -> list batch.

  (** pipeline.py:549 [[data_dict[key] for batch in buffer for data_dict in batch]] *)
  Definition collect_key (key : string) (buf : list batch) : res (list (arr X)) :=
    mapM (fun s => match dget s key with Some v => Ok v | None => Err KeyError end) (List.concat buf).

  (** pipeline.py:554-557, assigning the values to the sequences of the buffer, in order. Each batch is an own list
      object and each sequence an own dict object. *)
  Fixpoint put_batch (key : string) (vs : list (arr X)) (b : batch) {struct b} : batch * list (arr X) :=
    match b with
    | [] => ([], vs)
    | s :: b' =>
        match vs with
        | [] => (b, [])
        | v :: vs' => let '(b2, r) := put_batch key vs' b' in (dset s key v :: b2, r)
        end
    end.
  Fixpoint put_buffer (key : string) (vs : list (arr X)) (buf : list batch) : list batch :=
    match buf with
    | [] => []
    | b :: buf' => let '(b2, r) := put_batch key vs b in b2 :: put_buffer key r buf'
    end.
  Definition put_key (key : string) (vs : list (arr X)) (buf : list batch) : res (list batch) :=
    let* _ := assert_ (List.length (List.concat buf) =? List.length vs) in
    Ok (put_buffer key vs buf).

  (** pipeline.py:548-557 one round: collect the values of the monotonic keys, shuffle, put them back *)
  Fixpoint put_keys (kvs : list (string * list (arr X))) (buf : list batch) : res (list batch) :=
    match kvs with
    | [] => Ok buf
    | (k, vs) :: kvs' => let* buf' := put_key k vs buf in put_keys kvs' buf'
    end.
  Definition shuffle_round (n : nat) (buf : list batch) : res (list batch) :=
    let* kvs := mapM (fun k => let* vs := collect_key k buf in Ok (k, vs)) mono_keys in
    put_keys kvs (shuffle n buf).

  (** pipeline.py:537-573 *)
  Definition shuffling (data : list batch) : gen batch := buffered buffer_size shuffle_round data.
End Shuffle.

(** ** LaplaceOrdering *)
Section Laplace.
  Context {P : Type}.
  (** a sequence: the length under [length_key], the [complete_frac] value, and everything else *)
  Record lseq := LSeq { ls_len : Z; ls_frac : Z; ls_rest : P }.
  Variable num_seqs_per_bin : nat.

  (** postprocessing.py:418 [seq_buffer.sort(key=..., reverse=...)]; python keeps the order of equal keys also with
      [reverse=True] *)
  Definition sort_dir (down : bool) (l : list lseq) : list lseq :=
    stable_sort_by (fun s => if down then (- ls_len s)%Z else ls_len s) l.
  (** postprocessing.py:417-420 *)
  Definition laplace_round (down : bool) (buf : list lseq) : list lseq :=
    map (fun '(s, f) => LSeq (ls_len s) f (ls_rest s)) (combine (sort_dir down buf) (map ls_frac buf)).

  (** postprocessing.py:407-440; [is_down_phase] changes with every round *)
  Definition laplace_ordering (data : list lseq) : gen lseq :=
    buffered num_seqs_per_bin (fun n buf => Ok (laplace_round (Nat.odd n) buf)) data.
End Laplace.
Arguments lseq : clear implicits.
