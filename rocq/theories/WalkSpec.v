(** Vocabulary for C140. *)
From Verif Require Import Base.
Local Open Scope nat_scope. Local Open Scope list_scope.

(** A graph with the tensors 0 to n - 1 *)
Definition graph_ok (n : nat) (consumers : nat -> list nat) (seeds : list nat) : Prop :=
  (forall x, In x seeds -> x < n) /\ forall x y, In y (consumers x) -> y < n.
(** From a seed to [x] in at most [k] steps *)
Fixpoint within (consumers : nat -> list nat) (seeds : list nat) (k x : nat) : Prop :=
  match k with
  | O => In x seeds
  | S k => within consumers seeds k x \/ exists y, within consumers seeds k y /\ In x (consumers y)
  end.
Definition reachable (consumers : nat -> list nat) (seeds : list nat) (x : nat) : Prop := exists k, within consumers seeds k x.
(** [x] is not farther from the seeds than [y]. *)
Definition not_farther (consumers : nat -> list nat) (seeds : list nat) (x y : nat) : Prop :=
  forall k, within consumers seeds k y -> within consumers seeds k x.
(** The list up to and with the first element which satisfies [e] *)
Fixpoint upto (e : nat -> bool) (l : list nat) : list nat :=
  match l with [] => [] | x :: l => if e x then [x] else x :: upto e l end.
