(** Model of the thread that keeps the used files of the file cache alive: returnn/util/file_cache.py:462-531 ([_TouchFilesThread]), and of
    acquiring and releasing files (133, 147, 330, 352).

    Simplifications: a path is the list of its components below the cache directory, so [[]] is the cache directory itself.
    One operation of the thread or of the main program is atomic (the GIL). The pause between two rounds is left out. *)
From Coq Require Import String.
From Verif Require Import Base PyDict.
Local Open Scope list_scope.

Definition path := list string.
Fixpoint path_eqb (a b : path) : bool :=
  match a, b with
  | [], [] => true
  | x :: a', y :: b' => String.eqb x y && path_eqb a' b'
  | _, _ => false
  end.
Lemma path_eqb_eq a : forall b, path_eqb a b = true <-> a = b.
Proof.
  induction a as [|x a IH]; destruct b as [|y b]; cbn; try (split; congruence). rewrite andb_true_iff, String.eqb_eq, IH. split; [intros [-> ->]; reflexivity|intros [= -> ->]; auto].
Qed.
#[global] Instance EqB_path : EqB path := {| keqb := path_eqb; keqb_eq := path_eqb_eq |}.

(** The usage counters, a [defaultdict(int)]. *)
Definition counters := dict path Z.
Definition count (d : counters) (f : path) : Z := match dget d f with Some n => n | None => 0%Z end.

(** /repo/returnn/util/file_cache.py:500-501 *)
Definition extend (d : counters) (fs : list path) : counters := fold_left (fun d f => dset d f (count d f + 1)%Z) fs d.
(** /repo/returnn/util/file_cache.py:508-511 *)
Definition remove1 (d : counters) (f : path) : counters :=
  let d' := dset d f (count d f - 1)%Z in
  if (count d' f <=? 0)%Z then ddel d' f else d'.
Definition remove (d : counters) (fs : list path) : counters := fold_left remove1 fs d.

(** [_all_parent_dirs]: [None] for its AssertionError. /repo/returnn/util/file_cache.py:523-531 *)
Fixpoint parents_rev (r : path) : list path :=
  match r with
  | [] => []
  | _ :: r' => match r' with [] => [] | _ => rev r' :: parents_rev r' end
  end.
Definition all_parent_dirs (f : path) : option (list path) :=
  match f with [] => None | _ => Some (parents_rev (rev f)) end.

(** [all_files]: a dict used as an ordered set. /repo/returnn/util/file_cache.py:474-477 *)
Definition add_key (l : list path) (f : path) : list path := if existsb (path_eqb f) l then l else l ++ [f].
Fixpoint snapshot (fs : list path) (acc : list path) : option (list path) :=
  match fs with
  | [] => Some acc
  | f :: fs' => match all_parent_dirs f with None => None | Some ps => snapshot fs' (fold_left add_key ps (add_key acc f)) end
  end.

Inductive tpc := NotStarted | Loop | Touching (todo : list path) | Died.
Record world := mk_world {
  t_files : counters;
  t_pc : tpc;
  t_exists : path -> bool;     (* the file system *)
  t_log : list path }.         (* the files touched so far, in order *)

Inductive event :=
| Acquire (fs : list path)     (* files_extend *)
| Release (fs : list path)     (* files_remove *)
| Step                         (* the next step of the thread *)
| Create (f : path) | Unlink (f : path).

(** /repo/returnn/util/file_cache.py:471-485: the main loop of the thread. An exception ends it, and it is never started again (487-492). *)
Definition thread_step (w : world) : world :=
  match t_pc w with
  | NotStarted | Died => w
  | Loop => mk_world (t_files w) (match snapshot (dkeys (t_files w)) [] with Some l => Touching l | None => Died end) (t_exists w) (t_log w)
  | Touching [] => mk_world (t_files w) Loop (t_exists w) (t_log w)
  | Touching (f :: l) =>
      if t_exists w f then mk_world (t_files w) (Touching l) (t_exists w) (t_log w ++ [f])
      else mk_world (t_files w) Died (t_exists w) (t_log w)
  end.

Definition exec (e : event) (w : world) : world :=
  match e with
  | Acquire fs => mk_world (extend (t_files w) fs) (match t_pc w with NotStarted => Loop | c => c end) (t_exists w) (t_log w)
  | Release fs => mk_world (remove (t_files w) fs) (t_pc w) (t_exists w) (t_log w)
  | Step => thread_step w
  | Create f => mk_world (t_files w) (t_pc w) (fun g => path_eqb f g || t_exists w g) (t_log w)
  | Unlink f => mk_world (t_files w) (t_pc w) (fun g => negb (path_eqb f g) && t_exists w g) (t_log w)
  end.
Definition run (es : list event) (w : world) : world := fold_left (fun w e => exec e w) es w.
Definition start (ex : path -> bool) : world := mk_world [] NotStarted ex [].
