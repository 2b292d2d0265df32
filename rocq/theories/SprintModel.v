(** SprintDatasetBase: the Sprint thread adds sequences, the RETURNN train thread reads them.

    Models /repo/returnn/datasets/sprint.py SprintDatasetBase, with the loop over the epochs of
    /repo/returnn/sprint/interface.py getSegmentList as the Sprint thread, and the loop over the sequences of
    /repo/returnn/torch/data/returnn_dataset_wrapper.py as the train thread (is_less_than_num_seqs, load_seqs, get_data with one key).

    Both threads hold the lock except in [cond.wait()], so that a step of a thread is a piece of code between two waits.
    A thread which waits sleeps until another one calls [cond.notify_all()]; after that it checks its condition again.
    A sequence is any value; predefined_seq_list_order, printing and finalize_sprint are left out, and so is the assertion
    at the end of an epoch of getSegmentList that there were any frames (388-392).  The train thread starts with the first
    sequence (isTrainThreadStarted): Sprint does not wait for it before the first epoch, but before each later one. *)
From Verif Require Import Base.
Local Open Scope nat_scope.

(** sprint.py 52-53 SprintCachedSeqsMax, SprintCachedSeqsMin *)
Definition cached_max : nat := 200.
Definition cached_min : nat := 100.

Section Sprint.
  Context {D : Type}.

  (** the attributes of the dataset, sprint.py 131-145, 180-188 *)
  Record dataset := mkDataset {
    expected : nat; (* expected_load_seq_start *)
    requested : nat; (* requested_load_seq_end *)
    next_add : nat; (* next_seq_to_be_added *)
    final : bool; (* reached_final_seq *)
    ready : bool; (* ready_for_data *)
    added : list (nat * D); (* added_data: seq_idx and data *)
    sprint_epoch : option nat;
    returnn_epoch : option nat }.

  (** sprint.py 180-188 _reset_cache *)
  Definition reset_cache (m : dataset) : dataset := mkDataset 0 0 0 false true [] (sprint_epoch m) (returnn_epoch m).
  Definition initial : dataset := mkDataset 0 0 0 false true [] None None.

  (** the Sprint thread; [todo] are the epochs which come later.  The flag of a waiting thread: it was notified. *)
  Inductive producer :=
  | PWaitEpoch (e : nat) (todo : list (list D)) (awake : bool) (* in wait_for_returnn_epoch *)
  | PInit (e : nat) (todo : list (list D)) (* calls init_sprint_epoch *)
  | PAdd (e : nat) (ds : list D) (todo : list (list D)) (* calls add_new_data, or finish_sprint_epoch *)
  | PWaitAdd (e i : nat) (d : D) (ds : list D) (todo : list (list D)) (awake : bool) (* waits in add_new_data *)
  | PDone
  | PErr (x : err).
  (** the train thread; the calls which can wait *)
  Inductive call := Check | Load | Get.
  Inductive consumer :=
  | CInit (e : nat) (* calls init_seq_order *)
  | CCall (k : call) (e n : nat) (* calls is_less_than_num_seqs(n), load_seqs(n, n + 1) or get_data(n, key) *)
  | CWait (k : call) (e n : nat) (awake : bool)
  | CDone
  | CErr (x : err).
  Record state := mkState {
    ds_ : dataset; prod : producer; cons_ : consumer;
    out : list (list D); (* what the train thread got in the epochs before *)
    cur : list D (* in the current one *) }.

  (** [cond.notify_all()] *)
  Definition wake_p (p : producer) : producer :=
    match p with PWaitEpoch e t _ => PWaitEpoch e t true | PWaitAdd e i d ds t _ => PWaitAdd e i d ds t true | _ => p end.
  Definition wake_c (c : consumer) : consumer := match c with CWait k e n _ => CWait k e n true | _ => c end.

  (** * the Sprint thread *)
  (** sprint.py 507-509, the end of add_new_data *)
  Definition append (s : state) (e i : nat) (d : D) (l : list D) (todo : list (list D)) : state :=
    let m := ds_ s in
    mkState (mkDataset (expected m) (requested m) (next_add m) (final m) (ready m) (added m ++ [(i, d)]) (sprint_epoch m) (returnn_epoch m))
            (PAdd e l todo) (wake_c (cons_ s)) (out s) (cur s).

  Definition step_p (s : state) : option state :=
    let m := ds_ s in
    let goto p := Some (mkState m p (cons_ s) (out s) (cur s)) in
    match prod s with
    | PWaitEpoch e todo true => (* sprint.py 236-243 *)
      match returnn_epoch m with
      | None => goto (PErr TypeError) (* epoch > None *)
      | Some r => if e =? r then goto (PInit e todo) else if r <? e then goto (PWaitEpoch e todo false) else goto (PErr AssertionError)
      end
    | PWaitEpoch _ _ false => None
    | PInit e todo => (* sprint.py 190-201, interface.py 369-374 *)
      match todo with
      | [] => goto PDone
      | l :: todo' =>
        let m' := reset_cache m in
        Some (mkState (mkDataset (expected m') (requested m') (next_add m') (final m') (ready m') (added m') (Some e) (returnn_epoch m'))
                      (PAdd e l todo') (wake_c (cons_ s)) (out s) (cur s))
      end
    | PAdd e (d :: l) todo => (* sprint.py 458-509 *)
      if negb (ready m) || final m then goto (PErr AssertionError)
      else
        let i := next_add m in
        let m' := mkDataset (expected m) (requested m) (S i) (final m) (ready m) (added m) (sprint_epoch m) (returnn_epoch m) in
        let s' := mkState m' (prod s) (wake_c (cons_ s)) (out s) (cur s) in
        if requested m + cached_max <? i + 1 then
          if requested m + cached_min <? i + 1 then Some (mkState m' (PWaitAdd e i d l todo false) (wake_c (cons_ s)) (out s) (cur s))
          else Some (append s' e i d l todo)
        else Some (append s' e i d l todo)
    | PAdd e [] todo => (* sprint.py 511-522 finish_sprint_epoch, interface.py 365-368, 386 *)
      Some (mkState (mkDataset (expected m) (requested m) (next_add m) true false (added m) (sprint_epoch m) (returnn_epoch m))
                    (match todo with [] => PDone | _ => PWaitEpoch (S e) todo true end) (wake_c (cons_ s)) (out s) (cur s))
    | PWaitAdd e i d l todo true => (* sprint.py 502-509 *)
      if requested m + cached_min <? i + 1 then
        if final m || negb (i + 1 =? next_add m) then goto (PErr AssertionError) else goto (PWaitAdd e i d l todo false)
      else Some (append s e i d l todo)
    | PWaitAdd _ _ _ _ _ false => None
    | PDone => None
    | PErr _ => None
    end.

  (** * the train thread *)
  (** sprint.py 297-308 _have_seqs_added(n, n + 1) *)
  Fixpoint have_added (l : list (nat * D)) (n : nat) : res bool :=
    match l with
    | [] => Ok false
    | (i, _) :: l' => if n <? i then Err AssertionError else if i =? n then Ok true else have_added l' n
    end.
  (** sprint.py 245-256 _wait_for_seq_can_pass_check *)
  Definition can_pass (m : dataset) (n : nat) : res bool := if final m then Ok true else have_added (added m) n.
  (** sprint.py 310-318 _get_seq *)
  Fixpoint get_seq (l : list (nat * D)) (n : nat) : option D :=
    match l with [] => None | (i, d) :: l' => if i =? n then Some d else get_seq l' n end.
  (** sprint.py 228-234 _cleanup_old_seq_cache *)
  Fixpoint cleanup (l : list (nat * D)) (n : nat) : list (nat * D) :=
    match l with [] => [] | (i, d) :: l' => if n <=? i then l else cleanup l' n end.

  (** number of epochs of the training *)
  Variable num_epochs : nat.

  (** the call is over; the next one: returnn_dataset_wrapper.py 108-132 *)
  Definition after_call (s : state) (k : call) (e n : nat) : state :=
    let m := ds_ s in
    match k with
    | Check => (* sprint.py 557-564 *)
      if n <? next_add m then mkState m (prod s) (CCall Load e n) (out s) (cur s)
      else mkState m (prod s) (if e =? num_epochs then CDone else CInit (S e)) (out s ++ [cur s]) []
    | Load => mkState m (prod s) (CCall Get e n) (out s) (cur s)
    | Get => (* sprint.py 617-625 *)
      match get_seq (added m) n with
      | Some d => mkState m (prod s) (CCall Check e (S n)) (out s) (cur s ++ [d])
      | None => mkState m (prod s) (CErr OtherException) (out s) (cur s) (* AttributeError *)
      end
    end.
  (** sprint.py 272, 289: the check *)
  Definition check (s : state) (k : call) (e n : nat) : state :=
    match can_pass (ds_ s) n with
    | Err x => mkState (ds_ s) (prod s) (CErr x) (out s) (cur s)
    | Ok true => after_call s k e n
    | Ok false => mkState (ds_ s) (prod s) (CWait k e n false) (out s) (cur s)
    end.
  (** sprint.py 258-290 _wait_for_seq(n) *)
  Definition wait_for_seq (s : state) (k : call) (e n : nat) : state :=
    let m := ds_ s in
    if requested m <? S n then
      check (mkState (mkDataset (expected m) (S n) (next_add m) (final m) (ready m) (added m) (sprint_epoch m) (returnn_epoch m))
                     (wake_p (prod s)) (cons_ s) (out s) (cur s)) k e n
    else check s k e n.

  Definition step_c (s : state) : option state :=
    let m := ds_ s in
    match cons_ s with
    | CInit e => (* sprint.py 211-226 init_seq_order *)
      Some (mkState (mkDataset (expected m) (requested m) (next_add m) (final m) (ready m) (added m) (sprint_epoch m) (Some e))
                    (wake_p (prod s)) (CCall Check e 0) (out s) (cur s))
    | CCall Load e n => (* sprint.py 330-362 load_seqs, _load_seqs *)
      if n <? expected m then Some (mkState m (prod s) (CErr AssertionError) (out s) (cur s))
      else if expected m <? n then
        Some (wait_for_seq (mkState (mkDataset n (requested m) (next_add m) (final m) (ready m) (cleanup (added m) n) (sprint_epoch m) (returnn_epoch m))
                                    (wake_p (prod s)) (cons_ s) (out s) (cur s)) Load e n)
      else Some (wait_for_seq s Load e n)
    | CCall k e n => Some (wait_for_seq s k e n)
    | CWait k e n true => Some (check s k e n)
    | CWait _ _ _ false => None
    | CDone => None
    | CErr _ => None
    end.

  (** the start: Sprint adds the data of the first epoch before it waits for the train thread (interface.py 366) *)
  Definition start (epochs : list (list D)) : state := mkState initial (PInit 1 epochs) (CInit 1) [] [].
End Sprint.
Arguments state D : clear implicits.
Arguments dataset D : clear implicits.
Arguments producer D : clear implicits.
