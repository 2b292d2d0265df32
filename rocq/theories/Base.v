(** Common vocabulary of the model: python results, slices and small list helpers. *)
From Coq Require Export List Arith ZArith Lia Bool Permutation.
From Coq Require Export ZifyBool ZifyNat.
Export ListNotations.
Ltac Zify.zify_post_hook ::= Z.div_mod_to_equations.

(** The python exceptions that the modelled code raises itself or lets through. [OutOfFuel] is not a python
    exception: it marks a loop of the model that ran out of its step budget. *)
Inductive err :=
| AssertionError | KeyError | IndexError | ValueError | TypeError | ZeroDivisionError
| NotImplementedError | EOFError | StopIteration | OSError | OtherException | OutOfFuel.

Inductive res (A : Type) :=
| Ok (a : A)
| Err (e : err).
Arguments Ok {A} a.
Arguments Err {A} e.

Definition bind {A B} (x : res A) (f : A -> res B) : res B :=
  match x with Ok a => f a | Err e => Err e end.
Notation "'let*' x ':=' e 'in' k" := (bind e (fun x => k)) (at level 61, x pattern, e at next level, right associativity).

(** python [assert c] *)
Definition assert_ (c : bool) : res unit := if c then Ok tt else Err AssertionError.

(** python [l[a:b]] for non-negative [a], [b] *)
Definition pyslice {A} (l : list A) (a b : nat) : list A := firstn (b - a) (skipn a l).

(** python [l[i]] for non-negative [i] *)
Definition pyget {A} (l : list A) (i : nat) : res A :=
  match nth_error l i with Some x => Ok x | None => Err IndexError end.

(** [for x in l: ...] collecting results, stopping at the first exception *)
Fixpoint mapM {A B} (f : A -> res B) (l : list A) : res (list B) :=
  match l with
  | [] => Ok []
  | x :: l' => let* y := f x in let* ys := mapM f l' in Ok (y :: ys)
  end.

Definition is_ok {A} (x : res A) : bool := match x with Ok _ => true | Err _ => false end.
