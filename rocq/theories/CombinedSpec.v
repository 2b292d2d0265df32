(** What C28 is about. *)
From Coq Require Import String.
From Verif Require Import Base PyDict CombinedModel.
Local Open Scope nat_scope. Local Open Scope list_scope.

(** All sequences of all sub-datasets, one dataset after the other: number of the dataset and corpus index. *)
Fixpoint all_seqs_from (d : nat) (corpus : list (list nat)) : list (nat * nat) :=
  match corpus with [] => [] | l :: rest => map (pair d) l ++ all_seqs_from (S d) rest end.
Definition all_seqs (corpus : list (list nat)) : list (nat * nat) := all_seqs_from 0 corpus.
(** The part of a list of (dataset, sequence) which belongs to dataset [d]. *)
Definition of_dataset (d : nat) (l : list (nat * nat)) : list nat := map snd (filter (fun s => fst s =? d) l).
(** [numpy.random.choice] returns an index with positive probability / an element of the list. *)
Definition choices_ok {G} (choice_p : G -> list Z -> nat * G) (choice_list : G -> list nat -> nat * G) : Prop :=
  (forall g w, (exists i, (0 < nth i w 0)%Z) -> (0 < nth (fst (choice_p g w)) w 0)%Z) /\
  (forall g l, l <> [] -> In (fst (choice_list g l)) l).
(** What fixed-size sampling takes in an epoch: from each dataset (with its key and number [n] of sequences; its first sequence has the joint index [start]) the next [size] sequences after those of the earlier epochs, cyclically. *)
Fixpoint expected_samples (sampling : dict string nat) (epoch : nat) (ds : list (string * nat)) (start : nat) : list nat :=
  match ds with
  | [] => []
  | (key, n) :: ds' => map (fun i => i mod n + start) (seq ((epoch - 1) * match dget sampling key with Some s => s | None => 0 end) (match dget sampling key with Some s => s | None => 0 end)) ++ expected_samples sampling epoch ds' (start + n)
  end.
