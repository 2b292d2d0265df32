(** How processes may use the compiler, and what they should get. *)
From Verif Require Import Base NccModel.

(** A process which does nothing (any more) *)
Definition ended (c : pc) : bool := match c with Idle | Loaded _ | Failed _ | Cleaned | Dead => true | _ => false end.
Definition quiet (w : world) : Prop := forall p, ended (pcs w p) = true.

(** All events of a history meet a condition on the event and the state before it. *)
Fixpoint history (key : nat -> nat) (deps : nat -> bool) (limit : nat) (ok : event -> world -> Prop) (es : list event) (w : world) : Prop :=
  match es with [] => True | e :: es => ok e w /\ history key deps limit ok es (exec key deps limit e w) end.

(** One call after the other, each one ends or is killed before the next one starts. *)
Definition one_at_a_time (e : event) (w : world) : Prop := match e with Start _ | StartClean _ => quiet w | _ => True end.
(** No process is killed at the one moment when the info file is empty. *)
Definition info_written (e : event) (w : world) : Prop := match e with Crash p => pcs w p <> WriteInfo | _ => True end.
Definition no_crash (e : event) (w : world) : Prop := match e with Crash _ => False | _ => True end.
Definition no_cleanup (e : event) (w : world) : Prop := match e with StartClean _ => False | _ => True end.
(** The dependencies change only between the calls. *)
Definition edits_between (e : event) (w : world) : Prop := match e with Edit _ => quiet w | _ => True end.

(** The library is just written by a process. *)
Definition writes_library (w : world) (q : nat) : Prop := exists d, pcs w q = Link d.
(** [q] has the lock. *)
Definition has_lock (c : pc) : bool := match c with Compile | Link _ | OpenInfo | WriteInfo | Verify | Release _ => true | _ => false end.
