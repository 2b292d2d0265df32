(** Stable sorting, as python's list.sort and numpy's argsort(kind="stable") do it. *)
From Verif Require Import Base.
From Coq Require Import Sorted.

(** numpy.argsort(kind="stable") and list.sort(key=...): both are stable sorts. They are library functions; we
    model them by insertion sort. [insert_by] puts [x] before the first element whose key is not smaller. *)
Fixpoint insert_by {A} (key : A -> Z) (x : A) (l : list A) : list A :=
  match l with
  | [] => [x]
  | y :: l' => if (key x <=? key y)%Z then x :: l else y :: insert_by key x l'
  end.
Definition stable_sort_by {A} (key : A -> Z) (l : list A) : list A :=
  fold_right (insert_by key) [] l.
(** numpy.argsort(keys, kind="stable") *)
Definition argsort (keys : list Z) : list nat :=
  stable_sort_by (fun i => nth i keys 0%Z) (seq 0 (List.length keys)).
(** numpy fancy indexing [arr[indices]]; only used with indices that [argsort] of an equally long list returned *)
Definition take {A} (d : A) (l : list A) (idx : list nat) : list A := map (fun i => nth i l d) idx.

(** What a stable sort is: a reordering, in key order, that keeps the input order among equal keys. *)
Definition stably_sorted {A} (key : A -> Z) (inp out : list A) : Prop :=
  Permutation out inp
  /\ StronglySorted (fun x y => (key x <= key y)%Z) out
  /\ forall k, filter (fun x => (key x =? k)%Z) out = filter (fun x => (key x =? k)%Z) inp.
