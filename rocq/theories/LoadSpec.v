(* What a user relies on when a model is loaded. *)
From Coq Require Import List ZArith String Bool.
From Verif Require Import Base PyDict LoadModel.
Import ListNotations.

Section Spec.
Context {V : Type}.

(* The parameters (and persistent buffers) which a checkpoint should have. *)
Definition is_param (m : module V) (n : string) : Prop := exists k v, In (n, (k, v)) m /\ k <> KNonPersistent.

Definition value_of (m : module V) (n : string) (v : V) : Prop := exists k, In (n, (k, v)) m.

(* The parameters of the main checkpoint *)
Definition main_params (f : file V) : list (string * V) :=
  match dget (f_sub f) "model"%string with Some d => d | None => f_flat f end.

(* Is this entry of preload_from_files used? *)
Definition used (t : task) (first : bool) (p : preload V) : Prop :=
  match p_init p with
  | InitAlways => True
  | InitTrue => first = true
  | InitRecog => t <> TTrain
  | InitOther => False
  end.

(* The parameter n of the file under the name which it has with the prefix, unless it is to be ignored *)
Definition raw (p : preload V) (n : string) (v : V) : Prop :=
  exists f d n0, p_source p = SFile f /\
    match p_ckpt_key p with Some k => In (k, d) (f_sub f) | None => d = f_flat f end /\
    In (n0, v) d /\ n = (p_prefix p ++ n0)%string /\
    ~ In n (p_ignore p) /\ (forall q, In q (p_ignore_prefixes p) -> String.prefix q n = false).

(* The entry gives the parameter n the value v: by var_name_mapping, or else under its own name. *)
Definition gives (p : preload V) (n : string) (v : V) : Prop :=
  (exists old, In (n, old) (p_mapping p) /\ raw p old v) \/
  ((forall new old, In (new, old) (p_mapping p) -> n <> new /\ n <> old) /\ raw p n v).

(* var_name_mapping renames; no new name is also an old one *)
Definition renaming (p : preload V) : Prop :=
  NoDup (map fst (p_mapping p)) /\ NoDup (map snd (p_mapping p)) /\
  forall a b c d, In (a, b) (p_mapping p) -> In (c, d) (p_mapping p) -> a <> d.

(* Dicts have every key once. *)
Definition file_ok (f : file V) : Prop :=
  NoDup (map fst (f_sub f)) /\ NoDup (map fst (f_flat f)) /\ forall k d, In (k, d) (f_sub f) -> NoDup (map fst d).

Definition preload_ok (p : preload V) : Prop :=
  match p_source p with SFile f => file_ok f | SPattern _ => True end /\ renaming p.

Definition preloads_ok (l : list (string * preload V)) : Prop :=
  NoDup (map fst l) /\ forall key p, In (key, p) l -> preload_ok p.

(* An entry which is used gives n the value v, and it is the first one (in the order of the keys) to do so. *)
Definition preloaded (t : task) (first : bool) (l : list (string * preload V)) (n : string) (v : V) : Prop :=
  exists key p, In (key, p) l /\ used t first p /\ gives p n v /\
    forall key' p' v', In (key', p') l -> used t first p' -> gives p' n v' -> String.leb key key' = true.

Definition has_preload (t : task) (first : bool) (l : list (string * preload V)) (n : string) : Prop :=
  exists key p v, In (key, p) l /\ used t first p /\ gives p n v.

(* Some entry which is used says that n is initialized randomly. *)
Definition random_ok (t : task) (first : bool) (l : list (string * preload V)) (n : string) : Prop :=
  exists key p matches, In (key, p) l /\ used t first p /\ p_source p = SPattern matches /\ matches n = true.

(* The epoch of the loaded checkpoint: as found by the file name, or as saved *)
Definition loaded_epoch (start epoch : option Z) (main : option (file V)) : option Z :=
  match main, epoch with
  | Some f, None => Some (match f_epoch f with Some e => e | None => or_one start end)
  | _, _ => epoch
  end.

(* Training starts from scratch (or from an imported model, which counts as epoch 0). *)
Definition first_epoch (t : task) (start epoch : option Z) (main : option (file V)) : bool :=
  zero_epoch (loaded_epoch start epoch main) && match t with TOther => false | _ => true end.

(* epoch and global step of the model when it is created *)
Definition created (start epoch : option Z) (main : option (file V)) : Z * Z :=
  match main, loaded_epoch start epoch main with
  | Some f, Some e => (e, match f_step f with Some s => s | None => 1 end - 1)%Z
  | _, _ => (or_one start, 0%Z)
  end.

Definition module_ok (m : module V) : Prop := NoDup (map fst m).

(* Same names and kinds *)
Definition alike (m m' : module V) : Prop := map (fun p => (fst p, fst (snd p))) m = map (fun p => (fst p, fst (snd p))) m'.

(* What training may do to a module: parameters and persistent buffers get new values. *)
Definition trained (m m' : module V) : Prop :=
  alike m m' /\ forall n v, In (n, (KNonPersistent, v)) m -> In (n, (KNonPersistent, v)) m'.

End Spec.

Section Spec2.
Context {V : Type}.

(* The file has what the entry asks for: the checkpoint key, and the names of var_name_mapping. *)
Definition readable (p : preload V) : Prop :=
  exists f d, p_source p = SFile f /\
    match p_ckpt_key p with Some k => In (k, d) (f_sub f) | None => d = f_flat f end /\
    forall new old, In (new, old) (p_mapping p) -> exists v, raw p old v.

(* The entry is about some parameters of the model. *)
Definition relevant (p : preload V) (m : module V) : Prop :=
  exists n v, gives p n v /\ is_param m n /\ String.prefix (p_prefix p) n = true.

(* Everything that a training loads at its start is loaded again later: no parameter comes from an entry with
   init_for_train=True although an entry with "always" (so that it is not saved) has it, too. *)
Definition no_override (l : list (string * preload V)) : Prop :=
  forall key p key' p' n v v', In (key, p) l -> In (key', p') l -> p_init p = InitTrue -> p_init p' = InitAlways ->
    gives p n v -> gives p' n v' -> String.leb key' key = true.

End Spec2.
