(** Model of returnn/util/file_cache.py: how [FileCache.get_file] brings one file into the cache, step by step.
    The steps are the file system operations. Between any two of them the process may be killed or fail, another process may
    write the source file or clean up the cache.

    Simplifications: one source file and its four names in the cache directory (the file, ".copy", ".returnn-info"; the lock file is the
    topic of LockModel). The requests of all processes for this file are serialised by the lock (C16), so one program counter is enough.
    Creating the directories and the reports to stdout are left out. *)
From Verif Require Import Base.

Definition byte := nat.

(** /repo/returnn/util/file_cache.py:439-459: the content of the info file: [Some m] for the JSON text of [FileInfo(m)], [None] for an
    empty or incomplete text, as [save] leaves it when killed after [open(filename, "wt")]. *)
Definition info_text := option Z.

(** The program counter of the process working on the request, with its local variables. *)
Inductive pc :=
| Idle                                  (* no request *)
| Exists                                (* 365: os.path.exists(dst_filename) *)
| StatSrc                               (* 367 *)
| StatDst (ssize : nat) (smtime : Z)    (* 368 *)
| LoadInfo (ssize : nat) (smtime : Z) (dsize : nat)   (* 370 *)
| Compare (ssize : nat) (smtime : Z) (dsize : nat) (known : option Z)   (* 375-382 *)
| RemoveDst                             (* 380 *)
| Cleanup                               (* 339: FileCache.cleanup, see CleanupModel *)
| CheckTmp                              (* 341-350 *)
| StatMtime                             (* 354 *)
| SaveOpen (m : Z)                      (* 355, 451 *)
| SaveWrite (m : Z)                     (* 355, 452 *)
| StatSize                              (* 409 *)
| OpenTmp (n : nat)                     (* 410 *)
| Prealloc (n : nat)                    (* 411-416 *)
| Copying (n off : nat)                 (* 425: in the loop of shutil.copyfileobj *)
| Truncate (n : nat)                    (* 426 *)
| Rename                                (* 358 *)
| UtimeDst                              (* 130 *)
| UtimeInfo                             (* 131 *)
| Returned                              (* 134 *)
| Raised (e : err).

Record world := mk_world {
  w_src : list byte; w_mtime : Z;       (* the source file *)
  w_dst : option (list byte);           (* the cached file *)
  w_info : option info_text;            (* its info file *)
  w_tmp : option (list byte * Z);       (* the ".copy" file with its mtime *)
  w_now : Z;
  w_pc : pc }.

Definition set_pc (c : pc) (w : world) : world := mk_world (w_src w) (w_mtime w) (w_dst w) (w_info w) (w_tmp w) (w_now w) c.
Definition set_dst (d : option (list byte)) (w : world) : world := mk_world (w_src w) (w_mtime w) d (w_info w) (w_tmp w) (w_now w) (w_pc w).
Definition set_info (i : option info_text) (w : world) : world := mk_world (w_src w) (w_mtime w) (w_dst w) i (w_tmp w) (w_now w) (w_pc w).
Definition set_tmp (t : option (list byte)) (w : world) : world :=
  mk_world (w_src w) (w_mtime w) (w_dst w) (w_info w) (match t with Some c => Some (c, w_now w) | None => None end) (w_now w) (w_pc w).

(** Writing a chunk at some offset over existing content. *)
Definition write_at (off : nat) (chunk t : list byte) : list byte := firstn off t ++ chunk ++ skipn (off + length chunk) t.
(** [truncate(n)]: cuts, or fills with zeros. *)
Definition truncate (n : nat) (t : list byte) : list byte := firstn n t ++ repeat 0 (n - length t).

(** In nanoseconds: 0.8 times the lock timeout of 20 seconds. /repo/returnn/util/file_cache.py:95,346 *)
Definition tmp_min_age : Z := 16000000000.

(** The next operation of the process; a read of the source returns up to [k + 1] bytes (the OS may return any part).
    When the ".copy" file was removed by somebody, then the process writes to a file without a name; only the rename will fail.
    /repo/returnn/util/file_cache.py:100-134 (get_file: one try; see [get_file_tries] for the loop), 319-382, 396-426 *)
Definition act (k : nat) (w : world) : world :=
  match w_pc w with
  | Idle | Returned | Raised _ => w
  | Exists => set_pc (match w_dst w with None => Cleanup | Some _ => StatSrc end) w
  | StatSrc => set_pc (StatDst (length (w_src w)) (w_mtime w)) w
  | StatDst ss sm => set_pc (match w_dst w with None => Raised OSError | Some d => LoadInfo ss sm (length d) end) w
  | LoadInfo ss sm ds =>
      set_pc (match w_info w with
              | None => Compare ss sm ds None               (* FileNotFoundError is handled *)
              | Some None => Raised ValueError              (* JSONDecodeError *)
              | Some (Some m) => Compare ss sm ds (Some m)
              end) w
  | Compare ss sm ds known =>
      set_pc (if negb (ss =? ds) || match known with None => true | Some m => (m <? sm)%Z end then RemoveDst else UtimeDst) w
  | RemoveDst => match w_dst w with None => set_pc (Raised OSError) w | Some _ => set_pc Cleanup (set_dst None w) end
  | Cleanup => set_pc CheckTmp w
  | CheckTmp =>
      set_pc (match w_tmp w with
              | Some (_, tm) => if (tmp_min_age <? w_now w - tm)%Z then StatMtime else Raised AssertionError
              | None => StatMtime
              end) w
  | StatMtime => set_pc (SaveOpen (w_mtime w)) w
  | SaveOpen m => set_pc (SaveWrite m) (set_info (Some None) w)
  | SaveWrite m => set_pc StatSize (match w_info w with Some _ => set_info (Some (Some m)) w | None => w end)
  | StatSize => set_pc (OpenTmp (length (w_src w))) w
  | OpenTmp n => set_pc (Prealloc n) (set_tmp (Some []) w)
  | Prealloc n =>
      set_pc (Copying n 0)
        (match w_tmp w with Some _ => if 0 <? n then set_tmp (Some (repeat 0 (n + 1))) w else w | None => w end)
  | Copying n off =>
      let chunk := firstn (S k) (skipn off (w_src w)) in
      match chunk with
      | [] => set_pc (Truncate n) w
      | _ => set_pc (Copying n (off + length chunk))
               (match w_tmp w with Some (t, _) => set_tmp (Some (write_at off chunk t)) w | None => w end)
      end
  | Truncate n => set_pc Rename (match w_tmp w with Some (t, _) => set_tmp (Some (truncate n t)) w | None => w end)
  | Rename => match w_tmp w with None => set_pc (Raised OSError) w | Some (t, _) => set_pc UtimeDst (set_tmp None (set_dst (Some t) w)) end
  | UtimeDst => set_pc (match w_dst w with None => Raised OSError | Some _ => UtimeInfo end) w
  | UtimeInfo => set_pc (match w_info w with None => Raised OSError | Some _ => Returned end) w
  end.

Inductive event :=
| Request                               (* some process asks for the file; only while no other does *)
| Act (k : nat)                         (* the next operation of the process *)
| Fail (e : err)                        (* the next operation of the process raises (disk full, I/O error, ...) *)
| Kill                                  (* the process is killed *)
| WriteSrc (c : list byte) (d : positive)  (* the source gets a new content; its mtime grows *)
| EvictDst | EvictInfo | EvictTmp       (* some cleanup removes a file from the cache *)
| Tick (d : positive).

Definition exec (e : event) (w : world) : world :=
  match e with
  | Request => match w_pc w with Idle | Returned | Raised _ => set_pc Exists w | _ => w end
  | Act k => act k w
  | Fail x => match w_pc w with Idle | Returned | Raised _ => w | _ => set_pc (Raised x) w end
  | Kill => set_pc Idle w
  | WriteSrc c d => mk_world c (w_mtime w + Zpos d) (w_dst w) (w_info w) (w_tmp w) (w_now w) (w_pc w)
  | EvictDst => set_dst None w
  | EvictInfo => set_info None w
  | EvictTmp => set_tmp None w
  | Tick d => mk_world (w_src w) (w_mtime w) (w_dst w) (w_info w) (w_tmp w) (w_now w + Zpos d) (w_pc w)
  end.

Definition run (es : list event) (w : world) : world := fold_left (fun w e => exec e w) es w.

(** An empty cache. *)
Definition start (src : list byte) (mtime now : Z) : world := mk_world src mtime None None None now Idle.

(** /repo/returnn/util/file_cache.py:111-134: the loop of [get_file] over the tries; the results of the calls of [_copy_file_if_needed] are given
    ([ENOSPC] is the only error that is tried again; [None] stands for the call returning). The result: whether [get_file]
    goes on to return the file. *)
Inductive try_error := ENOSPC | Other (e : err).
Fixpoint get_file_tries (num_tries : nat) (results : nat -> option try_error) (try_nr : nat) (last_error : bool) : res unit :=
  match num_tries with
  | O => if last_error then Err OSError else Ok tt
  | S n =>
      match results try_nr with
      | None => if last_error then Err OSError else Ok tt
      | Some ENOSPC => get_file_tries n results (S try_nr) true
      | Some (Other e) => Err e
      end
  end.
