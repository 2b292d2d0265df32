(** Specification for the names of modules and parameters. *)
From Coq Require Import String Ascii.
From Verif Require Import Base PyDict ModTreeModel.
Local Open Scope nat_scope.

(** following attributes from module to module *)
Inductive path (h : heap) : nat -> list string -> nat -> Prop :=
| path_nil m : path h m [] m
| path_cons m n k ns m' : In (n, AMod k) (vars h m) -> path h k ns m' -> path h m (n :: ns) m'.
Definition reachable (h : heap) (root m : nat) : Prop := exists ns, path h root ns m.
(** ... up to a parameter *)
Definition param_path (h : heap) (root : nat) (ns : list string) (p : nat) : Prop :=
  exists ns' n m, ns = ns' ++ [n] /\ path h root ns' m /\ In (n, AParam p) (vars h m).

Definition good_name (n : string) : Prop := n <> ""%string /\ ~ In "."%char (list_ascii_of_string n).
(** attributes have names without dots, and modules are objects which exist *)
Definition good_heap (h : heap) : Prop :=
  forall m, dict_ok (vars h m)
    /\ forall n a, In (n, a) (vars h m) -> good_name n /\ match a with AMod k => k < length h | _ => True end.
Definition dotted (ns : list string) : string := String.concat "." ns.

(** no module contains itself *)
Definition acyclic (h : heap) : Prop := exists rank : nat -> nat, forall m n k, In (n, AMod k) (vars h m) -> rank k < rank m.
(** no module and no parameter is used at two places *)
Definition unshared (h : heap) (root : nat) : Prop :=
  (forall ns ns' m, path h root ns m -> path h root ns' m -> ns = ns')
  /\ (forall ns ns' p, param_path h root ns p -> param_path h root ns' p -> ns = ns').
(** a list of names is complete: every object under exactly one name, which is one of its shortest paths *)
Definition names_of (P : list string -> nat -> Prop) (l : list (string * nat)) : Prop :=
  NoDup (map fst l) /\ NoDup (map snd l)
  /\ (forall x, In x (map snd l) <-> exists ns, P ns x)
  /\ forall n x, In (n, x) l -> exists ns, n = dotted ns /\ P ns x /\ forall ns', P ns' x -> length ns <= length ns'.
(** the attribute [n] of the module [m] has been set to [v], and nothing else has changed *)
Definition written (h h' : heap) (m : nat) (n : string) (v : attr) : Prop :=
  length h' = length h
  /\ forall m' n', dget (vars h' m') n' = if (m' =? m) && String.eqb n' n then Some v else dget (vars h m') n'.
(** a call for a module comes after the calls for its children *)
Definition children_first (h : heap) (calls : list nat) : Prop :=
  forall before m after n k, calls = before ++ m :: after -> In (n, AMod k) (vars h m) -> k <> m -> In k before.
