(** Model of [NumbersDict], returnn/util/basic.py:1868-2265: numbers per data key with an optional broadcast
    value. Numbers are python ints ([Z]); the generic operations are stated for any value type. *)
From Coq Require Import String.
From Verif Require Import Base PyDict.

(** util/basic.py:1896-1898, [self.dict] and [self.value] *)
Record ndict (V : Type) := ND { nd_dict : dict string V; nd_value : option V }.
Arguments ND {V}. Arguments nd_dict {V}. Arguments nd_value {V}.

Section Generic.
  Context {V W : Type}.

  (** What can be passed to the constructor or as an operand: a dict, another [NumbersDict] or a plain number. *)
  Inductive operand := OpDict (d : dict string V) | OpND (n : ndict V) | OpNum (v : V).

  (** util/basic.py:1874-1898 [NumbersDict(x)] with the positional argument only *)
  Definition nd_make (x : operand) : ndict V :=
    match x with OpDict d => ND d None | OpND n => n | OpNum v => ND [] (Some v) end.

  (** util/basic.py:1907-1919 [constant_like] *)
  Definition constant_like {U} (c : V) (n : ndict U) : ndict V :=
    ND (map (fun '(k, _) => (k, c)) (nd_dict n)) (match nd_value n with Some _ => Some c | None => None end).

  (** util/basic.py:1967-1974 [get(key, default=None)] *)
  Definition nd_get (n : ndict V) (k : string) : option V :=
    match dget (nd_dict n) k with Some v => Some v | None => nd_value n end.

  (** util/basic.py:1952-1955 [self[key]] *)
  Definition nd_getitem (n : ndict V) (k : string) : res V :=
    match nd_value n with
    | Some v => Ok (match dget (nd_dict n) k with Some x => x | None => v end)
    | None => match dget (nd_dict n) k with Some x => Ok x | None => Err KeyError end
    end.

  (** util/basic.py:1921-1934 [copy_like] *)
  Definition copy_like {U} (self : ndict V) (like : ndict U) : res (ndict V) :=
    match nd_value self with
    | Some v =>
        let* items := mapM (fun k => let* x := nd_getitem self k in Ok (k, x)) (dkeys (nd_dict like)) in
        Ok (ND items (match nd_value like with Some _ => Some v | None => None end))
    | None =>
        let* items := mapM (fun k => let* x := nd_getitem self k in Ok (k, x))
                        (filter (fun k => dhas (nd_dict self) k) (dkeys (nd_dict like))) in
        Ok (ND items None)
    end.

  (** util/basic.py:1993-1997 [values] *)
  Definition nd_values (n : ndict V) : list V :=
    dvals (nd_dict n) ++ match nd_value n with Some v => [v] | None => [] end.

  (** util/basic.py:2018-2030 [unary_op] *)
  Definition unary_op (op : V -> W) (n : ndict V) : ndict W :=
    ND (map (fun '(k, v) => (k, op v)) (nd_dict n)) (option_map op (nd_value n)).
End Generic.
Arguments operand : clear implicits.

(** util/basic.py:1945-1956 [keys_union] of two dicts: the keys of the first, then the new ones of the second.
    [seen] is the set of keys already emitted. *)
Fixpoint keys_union_loop (seen : list string) (ks : list string) : list string :=
  match ks with
  | [] => []
  | k :: ks' => if existsb (String.eqb k) seen then keys_union_loop seen ks' else k :: keys_union_loop (k :: seen) ks'
  end.
Definition keys_union {V W} (a : ndict V) (b : ndict W) : list string :=
  keys_union_loop [] (dkeys (nd_dict a) ++ dkeys (nd_dict b)).

(** util/basic.py:2032-2047 [bin_op_scalar_optional]. The argument [zero] may be [None] (for max, min and
    elem_eq), and the operation then gets [None]; it may also return [None]. So the operation works on options. *)
Definition bin_op_scalar_optional {V W} (op : option V -> option V -> option W) (zero : option V)
    (a b : option V) : option W :=
  match a, b with
  | None, None => None
  | _, _ => op (match a with None => zero | _ => a end) (match b with None => zero | _ => b end)
  end.

(** util/basic.py:2049-2073 [bin_op] with [result=None] for two [NumbersDict] operands. A value of the resulting
    dict can be python [None] (for [elem_eq]), hence the values are options. The broadcast value of the result is
    [None] both when there is none and when the operation returned [None], as in the code. *)
Definition bin_op_nd {V W} (op : option V -> option V -> option W) (zero : option V) (a b : ndict V) : ndict (option W) :=
  ND (map (fun k => (k, bin_op_scalar_optional op zero (nd_get a k) (nd_get b k))) (keys_union a b))
     (match bin_op_scalar_optional op zero (nd_value a) (nd_value b) with Some w => Some (Some w) | None => None end).

(** util/basic.py:2060-2066: the conversion of operands that are plain numbers. (A plain dict as operand is not
    a [NumbersDict] either: [constant_like] would then put the dict itself as value; we leave this case out.) *)
Inductive num_operand (V : Type) := NumND (n : ndict V) | Num (v : V).
Arguments NumND {V}. Arguments Num {V}.
Definition op_convert {V} (a b : num_operand V) : ndict V * ndict V :=
  match a, b with
  | NumND x, NumND y => (x, y)
  | Num u, NumND y => (constant_like u y, y)
  | NumND x, Num v => (x, constant_like v x)
  | Num u, Num v => let x := nd_make (OpNum u) in (x, constant_like v x)
  end.
Definition bin_op {V W} (op : option V -> option V -> option W) (zero : option V) (a b : num_operand V) : ndict (option W) :=
  let '(x, y) := op_convert a b in bin_op_nd op zero x y.

(** A number operation as used with a [zero] that is not [None]: it then never sees or returns [None]. *)
Definition lift2 {V} (f : V -> V -> V) (a b : option V) : option V :=
  match a, b with Some x, Some y => Some (f x y) | _, _ => None end.
(** drop the option layer of result values: python [None] entries never occur for these operations *)
Definition strip {W} (n : ndict (option W)) : ndict W :=
  ND (flat_map (fun '(k, v) => match v with Some w => [(k, w)] | None => [] end) (nd_dict n))
     (match nd_value n with Some (Some w) => Some w | _ => None end).

(** util/basic.py:2075-2121 *)
Definition nd_add (a b : num_operand Z) : ndict Z := strip (bin_op (lift2 Z.add) (Some 0%Z) a b).
Definition nd_sub (a b : num_operand Z) : ndict Z := strip (bin_op (lift2 Z.sub) (Some 0%Z) a b).
Definition nd_rsub (a b : num_operand Z) : ndict Z := strip (bin_op (lift2 (fun x y => y - x)%Z) (Some 0%Z) a b).
Definition nd_mul (a b : num_operand Z) : ndict Z := strip (bin_op (lift2 Z.mul) (Some 1%Z) a b).
(** [a // b]; python raises ZeroDivisionError for a zero divisor, checked key by key *)
Definition floordiv_op (a b : option Z) : option (res Z) :=
  match a, b with
  | Some x, Some y => Some (if (y =? 0)%Z then Err ZeroDivisionError else Ok (x / y)%Z)
  | _, _ => None
  end.
(** python evaluates the keys in order and then the broadcast value, and stops at the first exception *)
Definition nd_floordiv (a b : num_operand Z) : res (ndict Z) :=
  let n := strip (bin_op floordiv_op (Some 1%Z) a b) in
  let* items := mapM (fun '(k, r) => let* v := r in Ok (k, v)) (nd_dict n) in
  match nd_value n with
  | Some r => let* v := r in Ok (ND items (Some v))
  | None => Ok (ND items None)
  end.
Definition nd_neg (n : ndict Z) : ndict Z := unary_op Z.opp n.
(** util/basic.py:2123-2124 [__bool__] *)
Definition nd_bool (n : ndict Z) : bool := existsb (fun v => negb (v =? 0)%Z) (nd_values n).

(** util/basic.py:2080 and others: [a += b] writes into [a.dict] while it reads from it; keys are visited once
    each, and the broadcast value is set at the end. *)
Definition nd_iop (f : Z -> Z -> Z) (zero : Z) (a : ndict Z) (b : num_operand Z) : ndict Z :=
  let '(x, y) := op_convert (NumND a) b in
  let d := fold_left (fun d k =>
             match bin_op_scalar_optional (lift2 f) (Some zero) (nd_get (ND d (nd_value a)) k) (nd_get y k) with
             | Some w => dset d k w | None => d end) (keys_union x y) (nd_dict a) in
  ND d (bin_op_scalar_optional (lift2 f) (Some zero) (nd_value a) (nd_value y)).

(** util/basic.py:2203-2221 [_max], [_min] of two optional numbers *)
Definition opt_max (a b : option Z) : option Z :=
  match a, b with
  | None, None => None | Some x, None => Some x | None, Some y => Some y
  | Some x, Some y => Some (Z.max x y)
  end.
Definition opt_min (a b : option Z) : option Z :=
  match a, b with
  | None, None => None | Some x, None => Some x | None, Some y => Some y
  | Some x, Some y => Some (Z.min x y)
  end.

(** util/basic.py:2223-2249 [max], [min] over a list of items *)
Fixpoint nd_fold (op : option Z -> option Z -> option Z) (items : list (num_operand Z)) : res (ndict Z) :=
  match items with
  | [] => Err AssertionError
  | [x] => Ok (match x with NumND n => n | Num v => nd_make (OpNum v) end)
  | [x; y] => Ok (strip (bin_op op None x y))
  | x :: items' => let* r := nd_fold op items' in Ok (strip (bin_op op None x (NumND r)))
  end.
Definition nd_max := nd_fold opt_max.
Definition nd_min := nd_fold opt_min.

(** util/basic.py:2129-2158 [elem_eq] *)
Definition eq_op (a b : option Z) : option bool :=
  match a, b with Some x, Some y => Some (x =? y)%Z | _, _ => None end.
Definition elem_eq (a : ndict Z) (b : num_operand Z) (result_with_default : bool) : ndict (option bool) :=
  let r := bin_op eq_op None (NumND a) b in
  if result_with_default then r else ND (nd_dict r) None.
(** util/basic.py:2160-2165 [__eq__]: [all(...)] takes python [None] as false *)
Definition nd_eq (a : ndict Z) (b : num_operand Z) : bool :=
  forallb (fun v => match v with Some true => true | _ => false end) (nd_values (elem_eq a b true)).

(** util/basic.py:2179-2201 [any_compare] *)
Definition any_compare (cmp : Z -> Z -> bool) (self other : ndict Z) : bool :=
  existsb (fun '(k, v) => match dget (nd_dict other) k with
                          | Some w => cmp v w
                          | None => match nd_value other with Some w => cmp v w | None => false end
                          end) (nd_dict self)
  || match nd_value self, nd_value other with Some v, Some w => cmp v w | _, _ => false end.

(** util/basic.py:2256-2266 [max_value], [min_value]; python [max] of an empty list raises ValueError *)
Definition max_value (n : ndict Z) : res Z :=
  match nd_values n with [] => Err ValueError | v :: vs => Ok (fold_left Z.max vs v) end.
Definition min_value (n : ndict Z) : res Z :=
  match nd_values n with [] => Err ValueError | v :: vs => Ok (fold_left Z.min vs v) end.
