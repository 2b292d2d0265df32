(** What [NumbersDict] should mean: a number for every key, from the dict or else the broadcast value. *)
From Coq Require Import String.
From Verif Require Import Base PyDict NumbersDictModel.

(** The number that [n] has at key [k]: the entry of the dict, otherwise the broadcast value, if any. *)
Definition at_key {V} (n : ndict V) (k : string) : option V :=
  match find (fun p => String.eqb (fst p) k) (nd_dict n) with
  | Some p => Some (snd p)
  | None => nd_value n
  end.

Definition has_key {V} (n : ndict V) (k : string) : Prop := exists v, In (k, v) (nd_dict n).

(** An operand at a key: a plain number is the same number at each key where the other operand has one. *)
Definition operand_at {V} (a other : num_operand V) (k : string) : option V :=
  match a with
  | NumND n => at_key n k
  | Num v => match other with
             | NumND n => match at_key n k with Some _ => Some v | None => None end
             | Num _ => Some v
             end
  end.

Definition operand_has_key {V} (a : num_operand V) (k : string) : Prop :=
  match a with NumND n => has_key n k | Num _ => False end.

(** A number operation where a side without a number counts as [zero], and no number on both sides gives none. *)
Definition pointwise {V} (f : V -> V -> V) (zero : V) (x y : option V) : option V :=
  match x, y with
  | None, None => None
  | Some u, None => Some (f u zero)
  | None, Some v => Some (f zero v)
  | Some u, Some v => Some (f u v)
  end.

(** [n] is the result of a number operation, key by key, on [a] and [b]. *)
Definition is_pointwise {V} (f : V -> V -> V) (zero : V) (a b : num_operand V) (n : ndict V) : Prop :=
  (forall k, at_key n k = pointwise f zero (operand_at a b k) (operand_at b a k)) /\
  (forall k, has_key n k <-> operand_has_key a k \/ operand_has_key b k).

(** largest / smallest of the numbers that are present *)
Definition is_greatest (le : Z -> Z -> Prop) (xs : list (option Z)) (r : option Z) : Prop :=
  match r with
  | None => forall x, In x xs -> x = None
  | Some m => In (Some m) xs /\ forall x, In (Some x) xs -> le x m
  end.
