(** What the lock file should guarantee. *)
From Verif Require Import Base LockModel.

(** [p] is between the return of [lock()] and the call of [unlock()]. *)
Definition holds (w : world) (p : nat) : Prop := w_pc w p = Held.
(** [p] is alive and its [unlock()] has not removed the file yet. *)
Definition in_possession (w : world) (p : nat) : Prop := w_pc w p = Held \/ w_pc w p = Close \/ w_pc w p = Remove.
Definition exclusive (w : world) : Prop := forall p q, holds w p -> holds w q -> p = q.

(** The file is older than the timeout. *)
Definition stale (timeout : Z) (w : world) : Prop := exists p m, w_file w = Some (p, m) /\ (timeout < Z.abs (w_now w - m))%Z.

(** Whenever somebody has the lock the file is not stale. (Every holder releases the lock in time or is killed.) *)
Definition holders_in_time (timeout : Z) (w : world) : Prop := forall p, in_possession w p -> ~ stale timeout w.
(** A waiting process that removes an old lock file does it while the file is still old. *)
Definition removes_only_stale (timeout : Z) (w : world) (e : event) : Prop :=
  forall p, e = Act p -> w_pc w p = RemoveOld -> w_file w = None \/ stale timeout w.
(** Some condition holds before every event of the schedule. *)
Definition always (timeout : Z) (P : world -> event -> Prop) (es : list event) (w : world) : Prop :=
  forall pre e post, es = pre ++ e :: post -> P (run timeout pre w) e.
