(** Model of [FileCache.cleanup], returnn/util/file_cache.py:149-256.

    Simplifications: times, sizes and ages are exact integers of one unit each (python: floats of seconds; the options in days are given in
    that unit here). A file name is given by its rank in the order of the names. The clean up of empty directories
    (258-280) and the messages are left out. What the operating system says is an argument. *)
From Coq Require Import QArith Qround.
From Verif Require Import Base PySort.
Local Open Scope Z_scope.

(** A file found in the cache directory: its stat result and name. *)
Record entry := mk_entry { f_mtime : Z; f_size : Z; f_name : nat }.

(** The constructor options. /repo/returnn/util/file_cache.py:55-84; [o_used] is half of the lock timeout (95, 194). *)
Record opts := mk_opts { o_always : Z; o_wanted : Z; o_ratio : Q; o_multiplier : Q; o_used : Z }.
(** The default values, with a second as unit. *)
Definition default_opts : opts := mk_opts (31 * 86400) 86400 (2 # 10) 2 10.

(** /repo/returnn/util/file_cache.py:156-159; [int] of a non-negative number rounds down. *)
Definition want_free (o : opts) (need total : Z) : Z :=
  Z.max (Qfloor (o_multiplier o * inject_Z need)) (Qfloor (o_ratio o * inject_Z total)).

(** /repo/returnn/util/file_cache.py:175-191: the tuples (mtime, -size, name), sorted. A sort by a tuple is a stable sort by its last component, then by the
    one before, and so on. *)
Definition sort_entries (fs : list entry) : list entry :=
  stable_sort_by f_mtime (stable_sort_by (fun f => - f_size f) (stable_sort_by (fun f => Z.of_nat (f_name f)) fs)).

(** How the loop ends. *)
Inductive ending := Finished | CannotFree.

(** /repo/returnn/util/file_cache.py:203-248. [removable f]: whether [os.remove] succeeds. The result: the files it tried to remove, each with its success, the expected
    free space, and the end. *)
Fixpoint cleanup_loop (o : opts) (now need want : Z) (removable : entry -> bool) (fs : list entry) (reached : bool) (free : Z)
  : list (entry * bool) * Z * ending :=
  match fs with
  | [] => ([], free, Finished)
  | f :: fs' =>
      let age := now - f_mtime f in
      let very_old := o_always o <? age in
      let reached := if very_old then reached else true in
      if negb very_old && (free <? need) && negb (o_used o <? age) then ([], free, CannotFree)
      else
        let delete1 := very_old || (free <? need) in
        if negb delete1 && (free <? want) && negb (o_wanted o <? age) then ([], free, Finished)  (* break *)
        else
          let delete := delete1 || (free <? want) in
          let free' := if delete then (if removable f then free + f_size f else free) else free in
          if reached && (want <=? free') then (if delete then [(f, removable f)] else [], free', Finished)  (* break *)
          else
            let '(removed, free'', e) := cleanup_loop o now need want removable fs' reached free' in
            (if delete then (f, removable f) :: removed else removed, free'', e)
  end.

(** [FileCache.cleanup(need_at_least_free_space_size=need)]. /repo/returnn/util/file_cache.py:149-256
    [total], [free]: the disk usage; [last_full]: the age of the last full cleanup, if any; [ten_minutes]: 60 * 10 in the unit of the times. *)
Definition cleanup (o : opts) (ten_minutes now : Z) (last_full : option Z) (total free need : Z) (removable : entry -> bool) (fs : list entry)
  : list (entry * bool) * res Z :=
  let want := want_free o need total in
  if (want <=? free) && match last_full with Some t => now - t <? ten_minutes | None => false end then ([], Ok free)
  else
    let '(removed, free', e) := cleanup_loop o now need want removable (sort_entries fs) false free in
    match e with
    | CannotFree => (removed, Err OtherException)
    | Finished => if free' <? need then (removed, Err OtherException) else (removed, Ok free')
    end.
