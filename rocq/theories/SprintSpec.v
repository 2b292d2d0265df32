(** Specification for the two threads of SprintDatasetBase. *)
From Verif Require Import Base SprintModel.
Local Open Scope nat_scope.

Section Spec.
  Context {D : Type}.
  (** the data of the epochs: what Sprint adds *)
  Variable epochs : list (list D).

  (** any of the threads which does not sleep makes a step *)
  Definition step (s s' : state D) : Prop := step_p s = Some s' \/ step_c (length epochs) s = Some s'.
  Inductive run (ok : state D -> state D -> Prop) : state D -> nat -> state D -> Prop :=
  | run_nil s : run ok s 0 s
  | run_cons s s' n s'' : ok s s' -> run ok s' n s'' -> run ok s (S n) s''.
  Definition reachable (ok : state D -> state D -> Prop) (s : state D) : Prop := exists n, run ok (start epochs) n s.

  (** the train thread got all the sequences of all epochs, in the order in which Sprint added them *)
  Definition complete (s : state D) : Prop := cons_ s = CDone /\ prod s = PDone /\ out s = epochs.
  Definition failed (s : state D) : Prop := (exists x, prod s = PErr x) \/ (exists x, cons_ s = CErr x).

  (** The train thread does not ask for sequences of epoch [e] (from the second one on) before Sprint has started it,
      and Sprint does not come to the end of its first epoch before the train thread has started it. *)
  Definition in_time (s : state D) : Prop :=
    match cons_ s with CCall _ e _ => e = 1 \/ sprint_epoch (ds_ s) = Some e | _ => True end.
  Definition started (s : state D) : Prop :=
    match prod s with PWaitEpoch _ _ _ => returnn_epoch (ds_ s) <> None | _ => True end.
  Definition step_in_time (s s' : state D) : Prop :=
    step_p s = Some s' /\ started s \/ step_c (length epochs) s = Some s' /\ in_time s.
End Spec.
(** Sprint is not far ahead: all sequences in memory are less than 200 after the last one which the train thread has asked for *)
Definition not_far_ahead {D} (s : state D) : Prop := Forall (fun x => fst x < requested (ds_ s) + 200) (added (ds_ s)).
