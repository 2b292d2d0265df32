(** What the arithmetic on dims is expected to do: it is integer arithmetic on the sizes. *)
From Coq Require Import String Ascii DecimalString.
From Verif Require Import Base DimModel.
Local Open Scope list_scope.
Local Open Scope Z_scope.
Local Notation length := List.length.

(** The size that a dim stands for, given the sizes of the dynamic dims of the user: plain integer arithmetic. *)
Fixpoint val (env : nat -> Z) (d : dim) : Z :=
  match d with
  | Var id _ _ s => match s with Some z => z | None => env id end
  | Const _ v => v
  | Der o a b => op_value o (val env a) (val env b)
  end.
Definition val_of (env : nat -> Z) (o : operand) : Z := match o with OInt z => z | ODim d => val env d end.

(** What an operation of the API means for the sizes. The side only matters for the order of the factors. *)
Definition meaning (op : mop) (x y : Z) : Z :=
  match op with CAdd _ => x + y | CSub _ => x - y | CMul _ => x * y | CDiv k _ => divide k x y end.

(** A dim is proper if every division in it is by a positive number and every division declared to be exact is. *)
Fixpoint proper (env : nat -> Z) (d : dim) : Prop :=
  match d with
  | Der o a b =>
      proper env a /\ proper env b /\
      match o with
      | ODiv k _ => 0 < val env b /\ (k = Exact -> (val env b | val env a))
      | _ => True
      end
  | _ => True
  end.
Definition proper_of (env : nat -> Z) (o : operand) : Prop := match o with OInt _ => True | ODim d => proper env d end.

(** Two dims that compare equal have the same size. *)
Definition eq_means_size (env : nat -> Z) (eqd : dim -> dim -> bool) : Prop := forall a b, eqd a b = true -> val env a = val env b.
(** Two dims that compare equal were derived in the same way. *)
Definition eq_means_same (eqd : dim -> dim -> bool) : Prop := forall a b, eqd a b = true -> a = b.

(** The cache answers with some earlier result for equal operands, or not at all. *)
Definition operand_eq (eqd : dim -> dim -> bool) (a b : operand) : bool :=
  match a, b with OInt x, OInt y => x =? y | ODim x, ODim y => eqd x y | _, _ => false end.
Definition answers_earlier (eqd : dim -> dim -> bool) (pick : list entry -> mop -> dim -> operand -> option dim) : Prop :=
  forall st op a o r, pick st op a o = Some r ->
  exists e, In e st /\ e_op e = op /\ eqd (e_self e) a = true /\ operand_eq eqd (e_other e) o = true /\ e_res e = r.

(** Programs: each step applies an operation to the results so far and appends its result. *)
Inductive arg := AInt (z : Z) | ARef (i : nat).
Record step := { s_op : mop; s_self : nat; s_arg : arg }.
Definition operand_at (ds : list dim) (a : arg) : option operand :=
  match a with AInt z => Some (OInt z) | ARef i => option_map ODim (nth_error ds i) end.
Fixpoint run (eqd : dim -> dim -> bool) (pick : list entry -> mop -> dim -> operand -> option dim) (n : nat)
    (prog : list step) (ds : list dim) : M (list dim) :=
  match prog with
  | [] => ret ds
  | s :: prog' =>
      match nth_error ds (s_self s), operand_at ds (s_arg s) with
      | Some d, Some o => do r <- dim_op eqd pick n (s_op s) d o; run eqd pick n prog' (ds ++ [r])
      | _, _ => raise IndexError
      end
  end.
(** The same program on plain numbers. *)
Definition arg_value (vs : list Z) (a : arg) : option Z := match a with AInt z => Some z | ARef i => nth_error vs i end.
Fixpoint run_values (prog : list step) (vs : list Z) : option (list Z) :=
  match prog with
  | [] => Some vs
  | s :: prog' =>
      match nth_error vs (s_self s), arg_value vs (s_arg s) with
      | Some x, Some y => run_values prog' (vs ++ [meaning (s_op s) x y])
      | _, _ => None
      end
  end.
(** No division in a dim, a dim that is a division, and the summands of a dim. *)
Fixpoint no_div (d : dim) : Prop :=
  match d with Der (ODiv _ _) _ _ => False | Der _ a b => no_div a /\ no_div b | _ => True end.
Definition is_quot (d : dim) : bool := match d with Der (ODiv _ _) _ _ => true | _ => false end.
Fixpoint summands (d : dim) : list dim := match d with Der OAdd a b => summands a ++ summands b | _ => [d] end.
(** A dividend whose summands are free of divisions or are themselves divisions, and no two of the divisions are equal.
    So no summand is a product with a division among its factors. *)
Fixpoint distinct (eqd : dim -> dim -> bool) (l : list dim) : Prop :=
  match l with [] => True | x :: l' => Forall (fun y => eqd x y = false) l' /\ distinct eqd l' end.
Definition dividend_ok (eqd : dim -> dim -> bool) (d : dim) : Prop :=
  distinct eqd (filter is_quot (summands d)) /\ Forall (fun s => no_div s \/ is_quot s = true) (summands d).
(** All factors of the divisor are positive. *)
Fixpoint positive (env : nat -> Z) (d : dim) : Prop :=
  match d with Der OMul a b => positive env a /\ positive env b | _ => 0 < val env d end.
Definition positive_of (env : nat -> Z) (o : operand) : Prop := match o with OInt z => 0 < z | ODim d => positive env d end.
(** A division that is covered: a good dividend, a positive divisor, and no remainder if declared so. *)
Definition division_ok (eqd : dim -> dim -> bool) (env : nat -> Z) (k : divk) (d : dim) (o : operand) : Prop :=
  dividend_ok eqd d /\ positive_of env o /\ (k = Exact -> (val_of env o | val env d)).
(** All divisions of a program that ended with the dims [ds] are covered. *)
Definition divisions_ok (eqd : dim -> dim -> bool) (env : nat -> Z) (prog : list step) (ds : list dim) : Prop :=
  Forall (fun s => match s_op s, nth_error ds (s_self s), operand_at ds (s_arg s) with
                   | CDiv k _, Some d, Some o => division_ok eqd env k d o
                   | _, _, _ => True
                   end) prog.

(** All sums inside a dim are non-negative: the assumption that a size is never negative. *)
Fixpoint sums_nonneg (env : nat -> Z) (d : dim) : Prop :=
  match d with
  | Der o a b => sums_nonneg env a /\ sums_nonneg env b /\ match o with OAdd => 0 <= val env a + val env b | _ => True end
  | _ => True
  end.

(** A dim derived from one dynamic dim by adding a number, multiplying with a number and dividing by one. *)
Fixpoint one_source (d : dim) : Prop :=
  match d with
  | Var _ _ _ s => s = None
  | Const _ _ => False
  | Der OAdd a b => (one_source a /\ size b <> None) \/ (size a <> None /\ one_source b)
  | Der OMul a b => (one_source a /\ exists z, size b = Some z /\ 0 <= z) \/ ((exists z, size a = Some z /\ 0 <= z) /\ one_source b)
  | Der (ODiv _ _) a b => one_source a /\ exists z, size b = Some z /\ 0 < z
  end.

Definition no_division (prog : list step) : Prop := Forall (fun s => match s_op s with CDiv _ _ => False | _ => True end) prog.

(** Equality and cache of a process in which every result is remembered: the cache belongs to the dim object, and an
    operand is found if it has the same hash ([Dim.__hash__], _dim_extra.py 1468-1492) and compares equal. *)
Definition dim_eq_dec (a b : dim) : {a = b} + {a <> b}.
Proof. repeat decide equality. Defined.
Definition same_dim (a b : dim) : bool := if dim_eq_dec a b then true else false.
Definition mop_eq_dec (a b : mop) : {a = b} + {a <> b}.
Proof. repeat decide equality. Defined.
Definition dim_eq : dim -> dim -> bool := eq_simple same_dim.
Definition size_eqb (a b : option Z) : bool := match a, b with Some x, Some y => x =? y | None, None => true | _, _ => false end.
Definition same_hash (a b : dim) : bool :=
  same_dim a b || (is_batch a && is_batch b)
  || (auto a && auto b && kind_eqb (kind_of a) (kind_of b) && size_eqb (size a) (size b) && String.eqb (desc a) (desc b)).
Definition remember (eqd : dim -> dim -> bool) (st : list entry) (op : mop) (a : dim) (o : operand) : option dim :=
  option_map e_res (find (fun e => (if mop_eq_dec (e_op e) op then true else false) && same_dim (e_self e) a
                                   && operand_eq (fun x y => same_hash x y && eqd x y) (e_other e) o) st).

(** Dims with distinguishable names: no name is empty, contains one of the characters that descriptions are built
    with, reads as a number or looks like the description of a constant, and the same name is the same dim. None of
    them is a batch dim. *)
Definition special (c : ascii) : bool := existsb (Ascii.eqb c) ["+"; "*"; "/"; "("; ")"; "["; "]"; ","; " "]%char.
Fixpoint plain_word (s : string) : bool := match s with EmptyString => true | String c s' => negb (special c) && plain_word s' end.
Definition good_name (s : string) : bool :=
  negb (String.eqb s ""%string) && plain_word s && negb (String.prefix "unnamed_"%string s)
  && match NilZero.int_of_string s with None => true | Some _ => false end.
Definition well_named (vars : list dim) : Prop :=
  Forall (fun d => good_name (desc d) = true /\ is_batch d = false) vars /\
  (forall a b, In a vars -> In b vars -> desc a = desc b -> a = b).
(** Built from the given dims and constants only. *)
Fixpoint over (vars : list dim) (d : dim) : Prop :=
  match d with
  | Var _ _ _ _ => In d vars
  | Const k _ => k <> Some KBatch
  | Der _ a b => over vars a /\ over vars b
  end.
