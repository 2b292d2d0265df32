(** Vocabulary for C38. *)
From Verif Require Import Base CkptModel ResumeModel.
Local Open Scope nat_scope. Local Open Scope list_scope.
Local Open Scope Z_scope.

(** The last epoch whose checkpoint, model and optimizer state, was completely saved; 0 if none. *)
Definition last_completed (tr : list event) : Z := fold_left (fun l ev => match ev with Completed e => e | _ => l end) tr 0.
(** Epoch [e] can be resumed from: both files exist. *)
Definition resumable (f : files) (e : Z) : Prop := In e (f_model f) /\ In e (f_opt f).
(** Epoch [e] is one of those after which a checkpoint should be saved. *)
Definition due (c : config) (e : Z) : Prop := (c_interval c | e) \/ e = c_final c.
(** Sensible configurations. *)
Definition sensible (c : config) : Prop :=
  1 <= c_interval c /\ 0 <= c_final c /\ (c_interval c = 1 \/ match c_cleanup c with Some o => 2 <= o_last o | None => True end).
