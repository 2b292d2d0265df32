(** Model of a training with PyTorch that is killed and started again any number of times: /repo/returnn/torch/engine.py:567-576, 1116-1184, 1366-1387, /repo/returnn/torch/updater.py:347-382, /repo/returnn/engine/base.py:205-226, 315-430.

    Every file operation is one step, and the process may be killed between any two. A checkpoint file appears by renaming a completely written temporary file, so it is there or not; the temporary files are left out. [cleanup] (CkptModel) decides which epochs to delete, from scores about which nothing is assumed here. [start_epoch] is "auto" and nothing is imported. *)
From Verif Require Import Base PyDict LrModel CkptModel.
Local Open Scope nat_scope. Local Open Scope list_scope.
Local Open Scope Z_scope.

Record config := mk_config {
  c_final : Z; (* num_epochs *)
  c_interval : Z; (* save_interval *)
  c_cleanup : option options; (* cleanup_old_models *)
  c_apply_keep : bool (* apply_cleanup_old_models_to_optim_states *) }.

Inductive process :=
| Down
| Training (e : Z) (* epoch [e] is running, or it has ended and nothing is saved yet *)
| SavedModel (e : Z) (* the model is saved, the optimizer not yet *)
| SavedOpt (e : Z) (* both saved *)
| Trained (e : Z) (* the end of [train_epoch], before the cleanup *)
| Cleaning (e : Z) (todo : list Z)
| CleaningOpt (e x : Z) (todo : list Z). (* inside [delete_model]: the model of [x] is deleted, the optimizer state not yet *)
Inductive event := Started (e : Z) | Completed (e : Z) | Nothing.
Record state := mk_state { s_files : files; s_proc : process }.

Definition drop (x : Z) (l : list Z) : list Z := filter (fun y => negb (y =? x)) l.
(** [self.epoch % interval == 0 or self.epoch == final_epoch]. torch/engine.py:567 *)
Definition saves (c : config) (e : Z) : bool := (e mod c_interval c =? 0) || (e =? c_final c).
Definition auto_start : start_options := mk_start true None None (-1) false.

Inductive step (c : config) : state -> event -> state -> Prop :=
| r_start f e : get_train_start_epoch f (c_final c) auto_start = Ok e -> e <= c_final c ->
    step c (mk_state f Down) (Started e) (mk_state f (Training e))
| r_model f e : saves c e = true ->
    step c (mk_state f (Training e)) Nothing (mk_state (mk_files (e :: drop e (f_model f)) (f_opt f)) (SavedModel e))
| r_opt f e :
    step c (mk_state f (SavedModel e)) (Completed e) (mk_state (mk_files (f_model f) (e :: drop e (f_opt f))) (SavedOpt e))
| r_old_opt f e :
    step c (mk_state f (SavedOpt e)) Nothing
      (mk_state (mk_files (f_model f) (if (0 <? e - 2) && negb (c_apply_keep c) then drop (e - 2) (f_opt f) else f_opt f)) (Trained e))
| r_no_save f e : saves c e = false -> step c (mk_state f (Training e)) Nothing (mk_state f (Trained e))
| r_no_cleanup f e : c_cleanup c = None -> step c (mk_state f (Trained e)) Nothing (mk_state f (Cleaning e []))
| r_cleanup f e o data rm : c_cleanup c = Some o -> cleanup data (get_existing_models f (c_final c) false) o = Ok rm ->
    step c (mk_state f (Trained e)) Nothing (mk_state f (Cleaning e rm))
| r_delete f e x todo : In x (f_model f) ->
    step c (mk_state f (Cleaning e (x :: todo))) Nothing (mk_state (mk_files (drop x (f_model f)) (f_opt f)) (CleaningOpt e x todo))
| r_delete_opt f e x todo :
    step c (mk_state f (CleaningOpt e x todo)) Nothing (mk_state (mk_files (f_model f) (drop x (f_opt f))) (Cleaning e todo))
| r_next f e : e + 1 <= c_final c -> step c (mk_state f (Cleaning e [])) Nothing (mk_state f (Training (e + 1)))
| r_end f e : e = c_final c -> step c (mk_state f (Cleaning e [])) Nothing (mk_state f Down)
| r_kill f p : step c (mk_state f p) Nothing (mk_state f Down).

(** [run c s tr s']: the events [tr], the first one first. *)
Inductive run (c : config) : state -> list event -> state -> Prop :=
| run_nil s : run c s [] s
| run_step s tr s1 ev s2 : run c s tr s1 -> step c s1 ev s2 -> run c s (tr ++ [ev]) s2.
Definition fresh : state := mk_state (mk_files [] []) Down.
