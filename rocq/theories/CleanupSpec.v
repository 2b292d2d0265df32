(** What a cleanup of the file cache should do. *)
From Coq Require Import QArith Qround.
From Verif Require Import Base CleanupModel.
Local Open Scope Z_scope.

Definition age (now : Z) (f : entry) : Z := now - f_mtime f.
(** The space that the successful removals gave. *)
Definition freed (removed : list (entry * bool)) : Z := fold_right Z.add 0 (map (fun fb => if snd fb : bool then f_size (fst fb) else 0) removed).
(** The constructor demands [cleanup_disk_usage_wanted_multiplier >= 1]; the other options are sensible, and sizes are sizes. *)
Definition sensible (o : opts) : Prop := (1 <= o_multiplier o)%Q /\ o_used o <= o_wanted o.
