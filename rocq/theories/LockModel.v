(** Model of [LockFile], returnn/util/basic.py:3098-3205: any number of processes use the same lock file. Every file system
    call is one atomic step. Simplifications: the directory exists (line 3156 creates it), other errors of the file
    system (no space, no permission) do not occur, and one process uses one [LockFile] object at a time. *)
From Verif Require Import Base.

(** Where a process is. *)
Inductive pc :=
| Idle                    (* not in [lock] and not holding *)
| Create                  (* about to do [os.open(O_CREAT | O_EXCL)], line 3171 *)
| Check                   (* about to do [os.path.getmtime], line 3119 *)
| Compare (mtime : Z)     (* has the mtime, about to call [time.time()], line 3122 *)
| RemoveOld               (* about to do [os.remove] in [maybe_remove_old_lockfile], line 3134 *)
| Sleep                   (* [time.sleep(1)], line 3183 *)
| Held                    (* [lock] has returned *)
| Close                   (* in [unlock], about to do [os.close], line 3192 *)
| Remove                  (* in [unlock], about to do [os.remove], line 3193 *)
| Failed                  (* [unlock] raised OSError as the file is not there *)
| Dead.                   (* killed *)

(** The lock file: who created it (not visible to the processes), and its modification time. *)
Record world := World { w_file : option (nat * Z); w_now : Z; w_pc : nat -> pc }.

Definition set_pc (w : world) (p : nat) (c : pc) : world :=
  World (w_file w) (w_now w) (fun q => if p =? q then c else w_pc w q).
Definition set_file (w : world) (f : option (nat * Z)) : world := World f (w_now w) (w_pc w).

(** What can happen next. *)
Inductive event :=
| Tick (d : Z)        (* the clock changes, it may also be set back *)
| Start (p : nat)     (* [p] calls [lock()] *)
| Release (p : nat)   (* [p] calls [unlock()] *)
| Act (p : nat)       (* [p] does its next step *)
| Crash (p : nat).    (* [p] is killed *)

Section Lock.
  (** [lock_timeout] *)
  Variable timeout : Z.

  (** util/basic.py:3111-3124 *)
  Definition is_old (mtime now : Z) : bool := negb (mtime =? 0)%Z && (timeout <? Z.abs (now - mtime))%Z.

  (** util/basic.py:3150-3193: the next step of process [p] *)
  Definition act (p : nat) (w : world) : world :=
    match w_pc w p with
    | Create => match w_file w with
                | None => set_pc (set_file w (Some (p, w_now w))) p Held
                | Some _ => set_pc w p Check
                end
    | Check => match w_file w with
               | None => set_pc w p Sleep
               | Some (_, m) => set_pc w p (Compare m)
               end
    | Compare m => set_pc w p (if is_old m (w_now w) then RemoveOld else Sleep)
    | RemoveOld => set_pc (set_file w None) p Sleep
    | Sleep => set_pc w p Create
    | Close => set_pc w p Remove
    | Remove => match w_file w with
                | None => set_pc w p Failed
                | Some _ => set_pc (set_file w None) p Idle
                end
    | Idle | Held | Failed | Dead => w
    end.

  Definition exec (e : event) (w : world) : world :=
    match e with
    | Tick d => World (w_file w) (w_now w + d)%Z (w_pc w)
    | Start p => match w_pc w p with Idle => set_pc w p Create | _ => w end
    | Release p => match w_pc w p with Held => set_pc w p Close | _ => w end
    | Act p => act p w
    | Crash p => set_pc w p Dead
    end.
  Definition run (es : list event) (w : world) : world := fold_left (fun w e => exec e w) es w.
End Lock.

(** Nobody is in [lock]; no lock file. *)
Definition start (now : Z) : world := World None now (fun _ => Idle).
