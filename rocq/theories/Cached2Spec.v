(** What C31 is about: histories of calls, and what the answers should be. *)
From Verif Require Import Base Cached2Model.
Local Open Scope nat_scope. Local Open Scope list_scope.

Inductive op := Load (start stop : nat) | IsLess (n : nat) | GetData (i : nat) | GetLength (i : nat) | GetNumTimesteps.
Inductive answer (A : Type) := ADone (r : res unit) | ABool (r : res bool) | AData (r : res A) | ANum (r : res nat).
Arguments ADone {A}. Arguments ABool {A}. Arguments AData {A}. Arguments ANum {A}.

Section Spec.
  Context {A : Type}.
  Variable seqs : list A.
  Variable frames : A -> nat.
  (** A call on the model. *)
  Definition call (s : cache A) (o : op) : cache A * answer A :=
    match o with
    | Load a b => match load_seqs seqs frames s a b with Ok s' => (s', ADone (Ok tt)) | Err e => (s, ADone (Err e)) end
    | IsLess n => let '(s', r) := is_less_than_num_seqs seqs frames s n in (s', ABool r)
    | GetData i => (s, AData (get_data s i))
    | GetLength i => let '(s', r) := get_seq_length seqs frames s i in (s', ANum r)
    | GetNumTimesteps => (s, ANum (get_num_timesteps s))
    end.
  Fixpoint calls (s : cache A) (ops : list op) : cache A * list (answer A) :=
    match ops with
    | [] => (s, [])
    | o :: ops' => let '(s', a) := call s o in let '(s'', l) := calls s' ops' in (s'', a :: l)
    end.

  (** The history is one of a client that loads forward only and starts each load within the epoch. [lo] is the start of the last load. *)
  Fixpoint forward_history (lo : nat) (ops : list op) : Prop :=
    match ops with
    | [] => True
    | Load a b :: ops' => lo <= a /\ a <= b /\ a < length seqs /\ forward_history a ops'
    | _ :: ops' => forward_history lo ops'
    end.
  (** The answers are right: [lo] is the start of the last load, [hi] the furthest end that was asked for so far. *)
  Fixpoint right_answers (lo hi : nat) (ops : list op) (answers : list (answer A)) : Prop :=
    match ops, answers with
    | [], [] => True
    | Load a b :: ops', ADone r :: answers' => r = Ok tt /\ right_answers a (Nat.max hi b) ops' answers'
    | IsLess n :: ops', ABool r :: answers' => r = Ok (n <? length seqs) /\ right_answers lo hi ops' answers'
    | GetData i :: ops', AData r :: answers' =>
        (forall x, r = Ok x -> nth_error seqs i = Some x) /\ (lo <= i < hi -> i < length seqs -> exists x, r = Ok x) /\ right_answers lo hi ops' answers'
    | GetLength i :: ops', ANum r :: answers' =>
        (forall n, r = Ok n -> exists x, nth_error seqs i = Some x /\ n = frames x) /\ (lo <= i < length seqs -> exists n, r = Ok n) /\
        right_answers lo (if lo <=? i then Nat.max hi (i + 1) else hi) ops' answers'
    | GetNumTimesteps :: ops', ANum r :: answers' => right_answers lo hi ops' answers'
    | _, _ => False
    end.
  (** Each load starts where some sequence before it was asked for: no sequence is left out. *)
  Fixpoint no_gaps (hi : nat) (ops : list op) : Prop :=
    match ops with
    | [] => True
    | Load a b :: ops' => a <= hi /\ no_gaps (Nat.max hi b) ops'
    | _ :: ops' => no_gaps hi ops'
    end.
End Spec.
