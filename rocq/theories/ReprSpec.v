(** Vocabulary for the properties of [better_repr] (C37). *)
From Coq Require Import Ascii String Permutation.
From Verif Require Import Base PyDict ReprModel.
Local Open Scope list_scope.

(** What python guarantees: dictionaries have distinct keys, and the text of a float is one. *)
Fixpoint well_formed (v : pyv) : Prop :=
  match v with
  | VFloat t => float_text t = true
  | VList l | VTuple l => fold_right (fun x P => well_formed x /\ P) True l
  | VDict d => NoDup (map fst d) /\ fold_right (fun kv P => well_formed (snd kv) /\ P) True d
  | VCall a b => well_formed a /\ well_formed b
  | _ => True
  end.
(** Nowhere inside is a tuple with exactly one element. *)
Fixpoint no_singletons (v : pyv) : Prop :=
  match v with
  | VTuple [_] => False
  | VList l | VTuple l => fold_right (fun x P => no_singletons x /\ P) True l
  | VDict d => fold_right (fun kv P => no_singletons (snd kv) /\ P) True d
  | VCall a b => no_singletons a /\ no_singletons b
  | _ => True
  end.
(** The same value; the order of the entries of a dictionary does not matter. *)
Inductive same : pyv -> pyv -> Prop :=
| same_refl v : same v v
| same_list l l' : Forall2 same l l' -> same (VList l) (VList l')
| same_tuple l l' : Forall2 same l l' -> same (VTuple l) (VTuple l')
| same_dict d d1 d2 : Permutation d d1 -> Forall2 (fun a b => fst a = fst b /\ same (snd a) (snd b)) d1 d2 -> same (VDict d) (VDict d2)
| same_call a a' b b' : same a a' -> same b b' -> same (VCall a b) (VCall a' b').
