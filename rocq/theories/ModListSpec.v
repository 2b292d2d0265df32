(** Specification for ModuleList and ParameterList: python lists. *)
From Coq Require Import String Ascii.
From Verif Require Import Base PyDict ModTreeModel ModListModel.
Local Open Scope nat_scope.

(** An entry has an own name, or it is numbered. *)
Notation entry := (option string * nat)%type.
(** the attribute names and the objects of a list: the names which parameters get in checkpoints *)
Fixpoint render_from (i : nat) (l : list entry) : list (string * nat) :=
  match l with
  | [] => []
  | (o, x) :: l' => (match o with Some n => n | None => str (Z.of_nat i) end, x) :: render_from (S i) l'
  end.
Definition is_name (s : string) : Prop := is_int_str s = false.
Definition names (l : list entry) : list string := flat_map (fun e => match fst e with Some n => [n] | None => [] end) l.
(** the container [v] is the list [l] *)
Definition represents (k : kind) (v : cont) (l : list entry) : Prop :=
  v = map (fun kx => (fst kx, wrap k (snd kx))) (render_from 0 l) /\ NoDup (names l) /\ Forall is_name (names l).
Definition numbered (l : list nat) : list entry := map (fun x => (None, x)) l.

(** [l[start:stop] = xs] of python lists *)
Definition py_setslice {A} (l : list A) (start stop : option Z) (xs : list A) : list A :=
  let a := start_of (length l) start in
  let b := Nat.max a (stop_of (length l) stop) in
  firstn a l ++ xs ++ skipn b l.
(** the bounds for which ModuleList follows python: a start which is not negative and not behind the end, and which is not after the stop *)
Definition plain_bounds (n : nat) (start stop : option Z) : Prop :=
  match start with Some i => (0 <= i <= Z.of_nat n)%Z | None => True end /\ start_of n start <= stop_of n stop.
