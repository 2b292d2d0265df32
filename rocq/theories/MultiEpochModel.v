(** Model of [MultiEpochDataset]: /repo/returnn/datasets/meta.py:1983-2067.

    The inner dataset is given by [inner epoch order]: the sequences after its [init_seq_order(epoch, seq_list, seq_order)]. (A predefined order is one argument here: a list of tags or of indices. Its type is [I].) It answers [is_less_than_num_seqs] and the reading of a sequence correctly. *)
From Verif Require Import Base.
Local Open Scope nat_scope. Local Open Scope list_scope.

Section MultiEpoch.
  Context {A I : Type}.
  Variable inner : option nat -> option (list I) -> list A.
  Variable multi_epoch : nat.

  (** the attributes, and the sequences of the current inner epoch *)
  Record mstate := MState { start_epoch : option nat; epoch_offset : nat; seq_idx_offset : nat; predefined : bool; cur : list A }.
  (** lines 2017-2026; [bool(seq_list or seq_order)] is False also for an empty list *)
  Definition m_init (epoch : option nat) (order : option (list I)) : mstate :=
    let start := match epoch with Some e => Some ((e - 1) * multi_epoch + 1) | None => None end in
    MState start 0 0 (match order with Some (_ :: _) => true | _ => false end) (inner start order).
  (** reading the sequence [i] of the inner dataset *)
  Definition read (st : mstate) (i : nat) : mstate * res (option A) :=
    (st, match nth_error (cur st) i with Some x => Ok (Some x) | None => Err OtherException end).
  (** lines 2048-2067 *)
  Definition collect_single_seq (st : mstate) (seq_idx : nat) : mstate * res (option A) :=
    if seq_idx <? seq_idx_offset st then (st, Err AssertionError) else
    let sub := seq_idx - seq_idx_offset st in
    if sub <? length (cur st) then read st sub else
    if predefined st then (st, Ok None) else
    match start_epoch st with
    | None => (st, Ok None)
    | Some e =>
        let offset := S (epoch_offset st) in
        if multi_epoch <=? offset then (MState (Some e) offset (seq_idx_offset st) (predefined st) (cur st), Ok None) else
        let st' := MState (Some e) offset seq_idx (predefined st) (inner (Some (e + offset)) None) in
        if 0 <? length (cur st') then read st' 0 else (st', Err AssertionError)
    end.
  Fixpoint collect_seqs (st : mstate) (idxs : list nat) : list (res (option A)) :=
    match idxs with
    | [] => []
    | i :: idxs' => let '(st', r) := collect_single_seq st i in r :: collect_seqs st' idxs'
    end.
End MultiEpoch.
