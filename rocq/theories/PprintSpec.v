(** Vocabulary for C144. *)
From Coq Require Import String.
From Verif Require Import Base PprintModel.
Local Open Scope list_scope.

(** Without white space of the layout *)
Definition visible (l : list tok) : list tok := filter (fun t => match t with T _ => true | _ => false end) l.
(** With a comma and a blank in between *)
Fixpoint joined (l : list (list tok)) : list tok :=
  match l with [] => [] | [x] => x | x :: l => x ++ [T ","; Space] ++ joined l end.
(** What python's [repr] gives for an object *)
Fixpoint python_repr (o : obj) : list tok :=
  match o with
  | Atom r => [T r]
  | OList [] => [T "[]"]
  | OList l => T "[" :: joined (map python_repr l) ++ [T "]"]
  | OTuple [] => [T "()"]
  | OTuple [x] => T "(" :: python_repr x ++ [T ","; T ")"]
  | OTuple l => T "(" :: joined (map python_repr l) ++ [T ")"]
  | OSet [] => [T "set()"]
  | OSet l => T "{" :: joined (map python_repr l) ++ [T "}"]
  | ODict [] => [T "{}"]
  | ODict l => T "{" :: joined (map (fun x => [T (fst x); T ":"; Space] ++ python_repr (snd x)) l) ++ [T "}"]
  end.
