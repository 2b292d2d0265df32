(** The manager which restarts the training process.

    Models /repo/returnn/util/train_proc_manager.py.  The training process is any function from the number of the start
    and the model files to the new model files and the return code.  Printing and times are left out. *)
From Verif Require Import Base CkptModel.
Local Open Scope Z_scope.

(** [max(models) if models else 0], train_proc_manager.py 58-59; get_existing_models with for_training=True
    (engine/base.py 75-109) is that of CkptModel *)
Definition newest (f : files) (final : Z) : Z := fold_left Z.max (get_existing_models f final true) 0.

(** the end of the manager: exit code, number of starts, files *)
Record outcome := mkOutcome { exit_code : Z; num_starts : nat; files_after : files }.

Section Manager.
  (** subprocess.Popen(args); proc.wait(), train_proc_manager.py 89-93 *)
  Variable child : nat -> files -> files * Z.
  Variable final : Z.

  (** [sys.exit(return_code if return_code is not None else -1)], train_proc_manager.py 97 *)
  Definition sys_exit (code : option Z) (n : nat) (f : files) : outcome :=
    mkOutcome (match code with Some c => c | None => -1 end) n f.

  (** train_proc_manager.py 57-93: the loop; [n] is num_starts *)
  Fixpoint loop (fuel : nat) (f : files) (last : option Z) (code : option Z) (n : nat) : res outcome :=
    match fuel with
    | O => Err OutOfFuel
    | S fuel' =>
      let cur := newest f final in
      if cur =? final then
        Ok (sys_exit (match code with None => Some 0 | Some c => Some c end) n f)
      else
        let start := (let (f', c) := child n f in loop fuel' f' (Some cur) (Some c) (S n)) in
        match last with
        | Some l =>
          if l <=? cur then
            if cur =? l then Ok (sys_exit code n f) else start
          else Err AssertionError
        | None => start
        end
    end.

  (** train_proc_manager.py 39-97 main_proc_manager *)
  Definition main_proc_manager (fuel : nat) (f : files) : res outcome := loop fuel f None None 0.
End Manager.

(** the options which train_proc_manager.py 18-36 and __main__.py 461 look at; [start_auto]: config.value("start_epoch", "auto") == "auto" *)
Record mconfig := mkMConfig { use_manager : bool; managed : bool; task_train : bool; start_auto : bool; use_horovod : bool; torch_distributed : bool }.
(** Does the process become a manager?  Otherwise it goes on with the training itself.  train_proc_manager.py 18-36 *)
Definition becomes_manager (c : mconfig) : bool :=
  if negb (use_manager c) then false
  else if managed c then false
  else if negb (task_train c) then false
  else if negb (start_auto c) then false
  else if use_horovod c then false
  else if torch_distributed c then false
  else true.
(** the config of the process which the manager starts: the same, with the environment variable set, train_proc_manager.py 43, 87-89 *)
Definition child_config (c : mconfig) : mconfig :=
  mkMConfig (use_manager c) true (task_train c) (start_auto c) (use_horovod c) (torch_distributed c).
