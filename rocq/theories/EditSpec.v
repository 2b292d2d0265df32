(** The edit distance: the least number of insertions, deletions and substitutions of one label. *)
From Verif Require Import Base.

Inductive edit {A} : list A -> list A -> Prop :=
| edit_insert : forall u x v, edit (u ++ v) (u ++ x :: v)
| edit_delete : forall u x v, edit (u ++ x :: v) (u ++ v)
| edit_substitute : forall u x y v, edit (u ++ x :: v) (u ++ y :: v).
Inductive edits {A} : nat -> list A -> list A -> Prop :=
| edits_none : forall a, edits 0 a a
| edits_one : forall n a b c, edit a b -> edits n b c -> edits (S n) a c.
Definition is_edit_distance {A} (a b : list A) (n : nat) : Prop :=
  edits n a b /\ forall m, edits m a b -> n <= m.
