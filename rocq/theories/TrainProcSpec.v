(** Specification of the manager of the training process. *)
From Verif Require Import Base CkptModel TrainProcModel.
Local Open Scope Z_scope.

(** an epoch from which the training can be resumed: both files are there *)
Definition usable (f : files) (final e : Z) : Prop := 1 <= e <= final /\ In e (f_model f) /\ In e (f_opt f).
(** the newest usable epoch, 0 if there is none *)
Definition is_newest (f : files) (final e : Z) : Prop :=
  (e = 0 \/ usable f final e) /\ forall e', usable f final e' -> e' <= e.

Section Runs.
  Variable child : nat -> files -> files * Z.
  (** the files after [n] runs of the training, and the return code of the last one *)
  Fixpoint after_runs (f : files) (n : nat) : files :=
    match n with O => f | S m => fst (child m (after_runs f m)) end.
  Definition code_of (f : files) (n : nat) : Z := snd (child n (after_runs f n)).

  (** before the run [n] (0, 1, ...) the training is not finished *)
  Definition unfinished (final : Z) (f : files) (n : nat) : Prop := ~ is_newest (after_runs f n) final final.
  (** the run [n] led to a newer epoch *)
  Definition progress (final : Z) (f : files) (n : nat) : Prop :=
    exists e e', is_newest (after_runs f n) final e /\ is_newest (after_runs f (S n)) final e' /\ e < e'.
  (** the run [n] did not lose the newest epoch *)
  Definition keeps (final : Z) (f : files) (n : nat) : Prop :=
    exists e e', is_newest (after_runs f n) final e /\ is_newest (after_runs f (S n)) final e' /\ e <= e'.
End Runs.
