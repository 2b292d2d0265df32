(** Specification vocabulary for C06 and C07. *)
From Verif Require Import Base WorkerModel.

(** The replies that a user of the worker expects: sequence number i of the current epoch. *)
Fixpoint expected_replies {D} (cur : list D) (ms : list (msg D)) : list (reply D) :=
  match ms with
  | [] => []
  | MInit _ l :: ms' => RNum D (length l) :: expected_replies l ms'
  | MGet _ i :: ms' => RSeq D (option_map (pair i) (nth_error cur i)) :: expected_replies cur ms'
  | MFinish _ :: ms' => expected_replies [] ms'
  end.

(** Admissible requests: within an epoch the sequence numbers never decrease and skip less than [buffer_size]
    existing sequences; numbers beyond the end are always fine.
    State: the sequences of the epoch, the lowest allowed number, and the first existing one out of reach. *)
Fixpoint admissible {D} (buffer_size : nat) (st : option (list D * nat * nat)) (ms : list (msg D)) : Prop :=
  match ms with
  | [] => True
  | MInit _ l :: ms' => admissible buffer_size (Some (l, 0, buffer_size)) ms'
  | MFinish _ :: ms' => admissible buffer_size None ms'
  | MGet _ i :: ms' =>
      match st with
      | None => False
      | Some (l, lo, hi) =>
          lo <= i /\ (i < length l -> i < hi) /\ admissible buffer_size (Some (l, i, i + 1 + buffer_size)) ms'
      end
  end.

(** forget the completion fraction *)
Definition no_frac {D} (x : option (nat * D * Z)) : option (nat * D) := option_map fst x.
Definition fracs {D} (l : list (option (nat * D * Z))) : list Z :=
  flat_map (fun x => match x with Some (_, f) => [f] | None => [] end) l.
