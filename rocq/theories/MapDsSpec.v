(** What a data set made of a list of sequences should give. *)
From Coq Require Import String.
From Verif Require Import Base MapDsModel.
Local Open Scope nat_scope.

(** All sequences with their tags, in the order of the list. *)
Definition whole {D} (ds : map_ds D) : list (D * string) := combine (md_seqs ds) (map (md_tag ds) (seq 0 (List.length (md_seqs ds)))).
Definition has_tag {D} (ds : map_ds D) (t : string) : Prop := exists i, i < List.length (md_seqs ds) /\ md_tag ds i = t.
Definition distinct_tags {D} (ds : map_ds D) : Prop :=
  forall i j, i < List.length (md_seqs ds) -> j < List.length (md_seqs ds) -> md_tag ds i = md_tag ds j -> i = j.
(** [x] is the last sequence with the tag *)
Definition last_with_tag {D} (ds : map_ds D) (t : string) (x : D) : Prop :=
  exists i, nth_error (md_seqs ds) i = Some x /\ md_tag ds i = t /\ forall j, i < j < List.length (md_seqs ds) -> md_tag ds j <> t.
(** What is read in an epoch with the given order of the sequences. *)
Definition read_all {D} (ds : map_ds D) (o : list nat) : res (list (D * string)) := mapM (collect ds (Some o)) (seq 0 (List.length o)).
