(** Native code compiled on the fly, returnn/util/native_code_compiler.py: any number of processes use the same directory of the cache.

    Every access to the file system is one atomic step, but all reads in the assertion at the end of the compilation are one. Simplifications:
    the compiler itself succeeds if the directory stays; [should_cleanup_old_mydir] is not set; the lock
    (see [LockModel]) is taken in one step when there is no lock file, and a lock file never gets old before its process is dead. The files with the code and the log
    are not modelled. Deleting a directory is one step. *)
From Verif Require Import Base.

(** A library: not complete, or compiled from the code of a compiler, and with the dependencies as of some time *)
Inductive lib := Broken | Lib (key dep : nat).

(** Where a process is; [second] is about the check which is done again, 238. *)
Inductive pc :=
| Idle
| CheckSo (second : bool)    (* about to look for the library, 205 *)
| CheckDep (second : bool)   (* about to compare the modification times, 207-211 *)
| CheckInfo (second : bool)  (* about to read the info file, 212-225 *)
| Touch                      (* about to touch the info file, 235, 241 *)
| Take                       (* about to take the lock, 246 *)
| Compile                    (* has the lock, about to start the compiler, 288-310 *)
| Link (dep : nat)           (* the compiler has read the code and writes the library *)
| OpenInfo                   (* about to create the info file, 198 *)
| WriteInfo                  (* about to write its content, 199 *)
| Verify                     (* about to check, 331 *)
| Release (e : option err)   (* about to release the lock; with an exception *)
| Load                       (* the compilation function has returned; about to load the library, 342 *)
| Loaded (l : lib)
| Failed (e : err)
| Clean | CleanInfo | CleanSo | CleanAge | Remove | Cleaned  (* [_cleanup_old] on this directory, 117-136 *)
| Dead.

(** The directory: whether it is there; the library and its modification time; the content (if complete: the compiler) and the modification time of the info file;
    who has the lock; the time; the modification time of the dependencies *)
Record world := World { present : bool; so : option (lib * nat); info : option (option nat * nat); lock : option nat; now : nat; dep : nat; pcs : nat -> pc }.
Definition set_pc (p : nat) (c : pc) (w : world) : world := World (present w) (so w) (info w) (lock w) (now w) (dep w) (fun q => if p =? q then c else pcs w q).
Definition set_so (x : option (lib * nat)) (w : world) : world := World (present w) x (info w) (lock w) (now w) (dep w) (pcs w).
Definition set_info (x : option (option nat * nat)) (w : world) : world := World (present w) (so w) x (lock w) (now w) (dep w) (pcs w).
Definition set_lock (x : option nat) (w : world) : world := World (present w) (so w) (info w) x (now w) (dep w) (pcs w).
Definition set_present (b : bool) (w : world) : world := World b (so w) (info w) (lock w) (now w) (dep w) (pcs w).
(** [shutil.rmtree], 144 *)
Definition rmtree (w : world) : world := World false None None None (now w) (dep w) (pcs w).

Inductive event :=
| Start (p : nat)       (* [p] calls [load_lib_ctypes] *)
| StartClean (p : nat)  (* [p], with another directory, cleans up *)
| Act (p : nat)         (* [p] does its next step *)
| Crash (p : nat)       (* [p] is killed, with its compiler *)
| Expire                (* the lock of a dead process has become old *)
| Tick (d : nat)        (* time passes *)
| Edit (d : nat).       (* later the dependencies change *)

Section Ncc.
  (** What the compilers of the processes compile (all [_relevant_info_keys], 160), and whether they have [include_deps]; the time after which to clean up *)
  Variable key : nat -> nat.
  Variable deps : nat -> bool.
  Variable limit : nat.

  (** What follows if it must be compiled *)
  Definition recompile (second : bool) : pc := if second then Take else CheckSo true.
  (** [_need_recompile] in one step, for the assertion, 201-225 *)
  Definition need_recompile (p : nat) (w : world) : bool :=
    match so w, info w with
    | Some (_, m), Some (Some k, _) => (deps p && (m <? dep w)) || negb (k =? key p)
    | _, _ => true
    end.

  (** The next step of a process: [_maybe_compile] 227-247, [_maybe_compile_inner] 286-331, [_cleanup_old] 107-136 *)
  Definition act (p : nat) (w : world) : world :=
    match pcs w p with
    | CheckSo b => set_pc p (match so w with None => recompile b | Some _ => if deps p then CheckDep b else CheckInfo b end) w
    | CheckDep b => set_pc p (match so w with None => Failed OSError | Some (_, m) => if m <? dep w then recompile b else CheckInfo b end) w
    | CheckInfo b =>
        set_pc p (match info w with
                  | None => recompile b
                  | Some (None, _) => Failed OtherException
                  | Some (Some k, _) => if k =? key p then Touch else recompile b
                  end) w
    | Touch => match info w with
               | None => set_pc p (Failed OSError) w
               | Some (c, _) => set_pc p Load (set_info (Some (c, now w)) w)
               end
    | Take => match lock w with
              | None => set_pc p Compile (set_present true (set_lock (Some p) w))
              | Some _ => w
              end
    | Compile => if present w then set_pc p (Link (dep w)) (set_so (Some (Broken, now w)) w) else set_pc p (Release (Some OSError)) w
    | Link d => match so w with
                | Some _ => set_pc p OpenInfo (set_so (Some (Lib (key p) d, now w)) w)
                | None => set_pc p (Release (Some AssertionError)) w
                end
    | OpenInfo => if present w then set_pc p WriteInfo (set_info (Some (None, now w)) w) else set_pc p (Release (Some OSError)) w
    | WriteInfo => set_pc p Verify (match info w with Some _ => set_info (Some (Some (key p), now w)) w | None => w end)
    | Verify => set_pc p (Release (if need_recompile p w then Some AssertionError else None)) w
    | Release e => match lock w with
                   | Some _ => set_pc p (match e with Some e => Failed e | None => Load end) (set_lock None w)
                   | None => set_pc p (Failed OSError) w
                   end
    | Load => set_pc p (match so w with Some (l, _) => Loaded l | None => Failed OSError end) w
    | Clean => set_pc p (match lock w with Some _ => Cleaned | None => if present w then CleanInfo else Cleaned end) w
    | CleanInfo => set_pc p (match info w with None => Remove | Some _ => CleanSo end) w
    | CleanSo => set_pc p (match so w with None => Remove | Some _ => CleanAge end) w
    | CleanAge => set_pc p (match so w with None => Failed OSError | Some (_, m) => if m + limit <? now w then Remove else Cleaned end) w
    | Remove => set_pc p Cleaned (rmtree w)
    | Idle | Loaded _ | Failed _ | Cleaned | Dead => w
    end.

  (** What can happen *)
  Definition exec (e : event) (w : world) : world :=
    match e with
    | Start p => match pcs w p with Idle => set_pc p (CheckSo false) w | _ => w end
    | StartClean p => match pcs w p with Idle => set_pc p Clean w | _ => w end
    | Act p => act p w
    | Crash p => match pcs w p with Idle | Loaded _ | Failed _ | Cleaned | Dead => w | _ => set_pc p Dead w end
    | Expire => match lock w with
                | Some p => match pcs w p with Dead => set_lock None w | _ => w end
                | None => w
                end
    | Tick d => World (present w) (so w) (info w) (lock w) (now w + d) (dep w) (pcs w)
    | Edit d => World (present w) (so w) (info w) (lock w) (now w + S d) (now w + S d) (pcs w)
    end.
  Definition run (es : list event) (w : world) : world := fold_left (fun w e => exec e w) es w.
End Ncc.

(** No directory, no process *)
Definition fresh : world := World false None None None 0 0 (fun _ => Idle).
