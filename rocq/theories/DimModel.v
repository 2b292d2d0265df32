(** Arithmetic on dimension tags: [Dim.__add__], [__sub__], [__mul__], [__floordiv__], [div_left], [ceildiv_right]
    and so on of returnn/tensor/_dim_extra.py, with the simplifications done by [_OpMultTerm] and [_OpLinearTerm],
    the cache of results, equality of dims, and the computation of the sizes of a derived dim. *)
From Coq Require Import String Ascii Decimal DecimalString DecimalZ.
From Verif Require Import Base.
Local Open Scope string_scope.
Local Open Scope nat_scope.
Local Open Scope list_scope.
Local Open Scope Z_scope.
Local Notation length := List.length.

(** [DimTypes], _dim_extra.py 24-34. [Unspecified] is [None]. *)
Inductive dkind := KBatch | KSpatial | KFeature.
Definition kind_eqb (a b : option dkind) : bool :=
  match a, b with
  | None, None | Some KBatch, Some KBatch | Some KSpatial, Some KSpatial | Some KFeature, Some KFeature => true
  | _, _ => false
  end.

(** The kinds of division, _dim_extra.py 2643-2650. *)
Inductive divk := Floor | Exact | Ceil.
Definition divk_eqb (a b : divk) : bool := match a, b with Floor, Floor | Exact, Exact | Ceil, Ceil => true | _, _ => false end.

(** [Op.kind] of a derived dim, _dim_extra.py 2332-2355 and 2643-2698, with the side for divisions. *)
Inductive dop := OAdd | OMul | ODiv (k : divk) (right : bool).

(** A dim. [Var] is a dim created by the user, with its identity, name, kind and static size (None is a dynamic
    size). [Const] is [_make_constant_static_dim], _dim_extra.py 2317-2329. [Der] is a dim with an op of two inputs,
    made in [_math_get_dim_via_bin_op] 2332-2355 and [new_div_dim] 2643-2698.
    Simplification: dims are values, two dims derived in the same way are the same value here, whether they are the
    same object is left to the equality test. [same_as] (declare_same_as) and batch contexts are not modelled. *)
Inductive dim :=
| Var (id : nat) (name : string) (k : option dkind) (size : option Z)
| Const (k : option dkind) (v : Z)
| Der (o : dop) (a b : dim).

(** integer division as python has it: [a // b] and [-(-a // b)], _dim_extra.py 2656-2671. *)
Definition divide (k : divk) (a b : Z) : Z := match k with Ceil => - (- a / b) | _ => a / b end.
Definition op_value (o : dop) (a b : Z) : Z := match o with OAdd => a + b | OMul => a * b | ODiv k _ => divide k a b end.

(** [Dim.dimension]: the static size, computed when the dim is made, _dim_extra.py 2343-2346 and 2652-2672. *)
Fixpoint size (d : dim) : option Z :=
  match d with
  | Var _ _ _ s => s
  | Const _ v => Some v
  | Der o a b => match size a, size b with Some x, Some y => Some (op_value o x y) | _, _ => None end
  end.

(** The op kind that is stored: a static division without remainder is stored as truediv, _dim_extra.py 2686-2689. *)
Definition op_of (d : dim) : option dop :=
  match d with
  | Der (ODiv k r) a b =>
      match size a, size b with
      | Some x, Some y => Some (ODiv (if x mod y =? 0 then Exact else k) r)
      | _, _ => Some (ODiv k r)
      end
  | Der o _ _ => Some o
  | _ => None
  end.
Definition is_div (d : dim) (k : divk) (right : bool) : bool :=
  match op_of d with Some (ODiv k' r') => divk_eqb k k' && Bool.eqb right r' | _ => false end.

(** [is_constant_static_dim], _dim_extra.py 2288-2292, with and without the test of the value. *)
Definition is_const (d : dim) : bool := match d with Const _ _ => true | _ => false end.
Definition is_const_of (d : dim) (z : Z) : bool := match d with Const _ v => v =? z | _ => false end.

(** [Dim.kind]: given, [_get_merged_dim_kind] 2858-2869, or the kind of the numerator 2692. *)
Fixpoint kind_of (d : dim) : option dkind :=
  match d with
  | Var _ _ k _ => k
  | Const k _ => k
  | Der (ODiv _ _) a _ => kind_of a
  | Der _ a b =>
      if kind_eqb (kind_of a) (Some KBatch) || kind_eqb (kind_of b) (Some KBatch) then Some KBatch
      else if kind_eqb (kind_of a) (Some KFeature) || kind_eqb (kind_of b) (Some KFeature) then Some KFeature
      else Some KSpatial
  end.
Definition is_batch (d : dim) : bool := kind_eqb (kind_of d) (Some KBatch).

(** [is_dynamic_seq_length], _dim_extra.py 948-955. Simplification: a dynamic size that is the same for all
    sequences is not distinguished. *)
Definition is_dynamic_seq (d : dim) : bool := match size d with None => negb (is_batch d) | Some _ => false end.

(** [_representative_tag], _dim_extra.py 2872-2885. *)
Definition representative (l : list dim) : option dim :=
  match find is_dynamic_seq l with
  | Some d => Some d
  | None => match find (fun d => negb (kind_eqb (kind_of d) None)) l with
            | Some d => Some d
            | None => hd_error l
            end
  end.

(** [auto_generated]: constants, and what is derived from an auto generated dim, _dim_extra.py 114-116, 2328, 2352
    and 2695. *)
Fixpoint auto (d : dim) : bool :=
  match d with
  | Var _ _ _ _ => false
  | Const _ _ => true
  | Der (ODiv _ _) a _ => auto a
  | Der _ a b =>
      if is_dynamic_seq a then auto a else if is_dynamic_seq b then auto b
      else if negb (kind_eqb (kind_of a) None) then auto a else if negb (kind_eqb (kind_of b) None) then auto b
      else auto a
  end.

(** The description of a dim, _dim_extra.py 2323-2329, 2347-2351 and 2673-2685, and [_get_description] 2393-2409.
    Simplification: names are non-empty, the brackets of the rounded up division are written c[...]c. *)
Definition int_str (z : Z) : string := NilZero.string_of_int (Z.to_int z).
Definition kind_str (k : option dkind) : string :=
  match k with None => "" | Some KBatch => "batch_" | Some KSpatial => "spatial_" | Some KFeature => "feature_" end.
Definition op_char (c : ascii) : bool := Ascii.eqb c "+" || Ascii.eqb c "-" || Ascii.eqb c "/" || Ascii.eqb c " ".
Fixpoint has_op_char (s : string) : bool := match s with EmptyString => false | String c s' => op_char c || has_op_char s' end.
Definition shown (brackets : bool) (s : option Z) (name : string) : string :=
  match String.prefix "unnamed_" name, s with
  | true, Some z => int_str z
  | _, _ => if brackets && has_op_char name then "(" ++ name ++ ")" else name
  end%string.
Definition divk_str (k : divk) : string := match k with Floor => "floordiv" | Exact => "truediv" | Ceil => "ceildiv" end.
Fixpoint desc (d : dim) : string :=
  match d with
  | Var _ name _ _ => name
  | Const k v => "unnamed_" ++ kind_str k ++ "dim_" ++ int_str v
  | Der OAdd a b => shown true (size a) (desc a) ++ "+" ++ shown true (size b) (desc b)
  | Der OMul a b => shown true (size a) (desc a) ++ "*" ++ shown true (size b) (desc b)
  | Der (ODiv Floor true) a b => shown true (size a) (desc a) ++ "//" ++ shown true (size b) (desc b)
  | Der (ODiv Ceil true) a b => "c[" ++ shown true (size a) (desc a) ++ "/" ++ shown true (size b) (desc b) ++ "]c"
  | Der (ODiv k r) a b =>
      divk_str k ++ (if r then "_right(" else "_left(") ++ shown false (size a) (desc a) ++ ", "
      ++ shown false (size b) (desc b) ++ ")"
  end%string.

(** [Dim._eq_simple], _dim_extra.py 1420-1448: the same object, or both batch dims, or both auto generated with the
    same description. [same] says which dims are the same object. *)
Definition eq_simple (same : dim -> dim -> bool) (a b : dim) : bool :=
  same a b || (is_batch a && is_batch b) || (auto a && auto b && String.eqb (desc a) (desc b)).

(** Keys of [_CacheDimMath], _dim_extra.py 2908-2980: the operation with its side, and a dim or a number. The same
    type names the operations of the API, 2077-2280. *)
Inductive mop := CAdd (left : bool) | CSub (left : bool) | CMul (left : bool) | CDiv (k : divk) (left : bool).
Inductive operand := OInt (z : Z) | ODim (d : dim).
Record entry := { e_op : mop; e_self : dim; e_other : operand; e_res : dim }.

(** A computation that reads and extends the caches of the dims; an exception leaves the entries made so far. *)
Definition M (A : Type) : Type := list entry -> res A * list entry.
Definition ret {A} (x : A) : M A := fun st => (Ok x, st).
Definition raise {A} (e : err) : M A := fun st => (Err e, st).
Definition mbind {A B} (m : M A) (f : A -> M B) : M B :=
  fun st => match m st with (Ok x, st') => f x st' | (Err e, st') => (Err e, st') end.
Notation "'do' x '<-' e ';' k" := (mbind e (fun x => k)) (at level 61, x pattern, e at next level, right associativity).

(** [for x in l: y = f(y, x)] *)
Fixpoint foldM {A B} (f : B -> A -> M B) (l : list A) (y : B) : M B :=
  match l with [] => ret y | x :: l' => do y' <- f y x; foldM f l' y' end.
Fixpoint mapMM {A B} (f : A -> M B) (l : list A) : M (list B) :=
  match l with [] => ret [] | x :: l' => do y <- f x; do ys <- mapMM f l'; ret (y :: ys) end.
(** [all(f(x) for x in l)], stopping at the first False *)
Fixpoint allM {A} (f : A -> M bool) (l : list A) : M bool :=
  match l with [] => ret true | x :: l' => do b <- f x; if b then allM f l' else ret false end.

Section Algebra.
(** [==] on dims *)
Variable eqd : dim -> dim -> bool.
(** What the cache of a dim answers, of the entries made so far: entries vanish when the cache is cleared
    (_dim_extra.py 2936-2940) or an operand is freed, so this is left open. *)
Variable pick : list entry -> mop -> dim -> operand -> option dim.

(** [_cache_dim_math_get], _dim_extra.py 2294-2304: constants are looked up by their number. *)
Definition norm (d : dim) : operand := match d with Const _ v => OInt v | _ => ODim d end.
Definition cached (op : mop) (self : dim) (o : operand) (make : M dim) : M dim :=
  fun st => match pick st op self o with
            | Some r => (Ok r, st)
            | None => match make st with
                      | (Ok r, st') => (Ok r, {| e_op := op; e_self := self; e_other := o; e_res := r |} :: st')
                      | x => x
                      end
            end.

(** [_math_get_dim_via_bin_op], _dim_extra.py 2332-2355. *)
Definition bin_op (mul : bool) (a b : dim) : M dim :=
  let left := is_const a && negb (is_const b) in
  let '(a_, b_) := if left then (b, a) else (a, b) in
  cached (if mul then CMul left else CAdd left) a_ (norm b_) (ret (Der (if mul then OMul else OAdd) a b)).

(** [_OpMultTerm.new_div_dim], _dim_extra.py 2643-2698. *)
Definition new_div (num den : dim) (k : divk) (right : bool) : M dim :=
  let make k := cached (CDiv k (negb right)) num (norm den) (ret (Der (ODiv k right) num den)) in
  match size num, size den with
  | Some a, Some b =>
      if b =? 0 then raise ZeroDivisionError
      else match k with
           | Floor => make Floor
           | Ceil => make (if (a mod b =? 0) && right then Floor else Ceil)
           | Exact => if a mod b =? 0 then make (if right then Floor else Exact) else raise ValueError
           end
  | _, _ => make k
  end.

(** A product, [_OpMultTerm], is the list of its factors. [as_dim] 2700-2711. *)
Definition mult_as_dim (t : list dim) : M dim :=
  match t with
  | [] => ret (Const None 1)
  | d :: t' => foldM (bin_op true) t' d
  end.

(** [_OpMultTerm.from_dim], _dim_extra.py 2417-2428: one level of a product is opened. *)
Definition mult_from_dim (d : dim) : list dim :=
  match d with
  | Const _ v => if v =? 1 then [] else [d]
  | Der OMul a b => [a; b]
  | _ => [d]
  end.

Definition mult_eq (s t : list dim) : bool :=
  (length s =? length t)%nat && forallb (fun p => eqd (fst p) (snd p)) (combine s t).

(** [is_constant_static_dim] and [dimension] of a product, _dim_extra.py 2463-2486. *)
Definition mult_is_const (t : list dim) : bool := forallb is_const t.
Definition mult_const_value (t : list dim) : Z := fold_right Z.mul 1 (map (fun d => match size d with Some z => z | None => 0 end) t).

(** [self.terms[-1]] and [self.terms[0]], by the side *)
Definition recent {A} (right : bool) (l : list A) : option A := if right then nth_error l (length l - 1) else hd_error l.

Definition set_nth {A} (i : nat) (x : A) (l : list A) : list A := firstn i l ++ x :: skipn (S i) l.
Definition pop_nth {A} (i : nat) (l : list A) : list A := firstn i l ++ skipn (S i) l.

(** kinds of [extend_mul_div_] *)
Inductive mkind := MMul | MDiv (k : divk).

(** [term.derived_from_op.inputs] of a division *)
Definition div_inputs (d : dim) : option (dim * dim) := match d with Der (ODiv _ _) a b => Some (a, b) | _ => None end.

(** [d] is stored as a truediv of the given side whose divisor equals [x] *)
Definition exact_by (right : bool) (d x : dim) : bool :=
  is_div d Exact right && match div_inputs d with Some (_, b) => eqd b x | None => false end.

(** the test of one factor in the loop of [_simplify_term_idx] for mul, _dim_extra.py 2562-2570 *)
Definition mul_match (other : dim) (right : bool) (term : dim) : bool :=
  exact_by right term other || exact_by (negb right) other term || (is_const term && is_const other).

(** [reversed(list(enumerate(...)))] or [enumerate(...)] *)
Definition sides {A} (right : bool) (l : list A) : list (nat * A) :=
  let e := combine (seq 0 (length l)) l in if right then rev e else e.

(** [_simplify_term_idx], _dim_extra.py 2543-2576. *)
Definition simplify_idx (terms : list dim) (other : dim) (k : mkind) (right : bool) : option nat :=
  match terms with
  | [] => None
  | d0 :: _ =>
      match k with
      | MMul => option_map fst (find (fun p => mul_match other right (snd p)) (sides right terms))
      | MDiv dk =>
          let i := if right then (length terms - 1)%nat else 0%nat in
          let term := nth i terms d0 in
          if eqd other term then Some i else if is_div term dk right then Some i else None
      end
  end.

(** [__mul__] and [__add__] of dims, used for the simplifications themselves; tied below *)
Variable rec : mop -> dim -> operand -> M dim.

(** the rest of [_OpMultTerm.extend_mul_div_] once [other] is a single factor, _dim_extra.py 2597-2641 *)
Definition extend_one (terms : list dim) (other : dim) (k : mkind) (right : bool) : M (list dim) :=
  let rest :=
    match k with
    | MDiv dk => do n <- mult_as_dim terms; do d <- new_div n other dk right; ret [d]
    | MMul => ret (if right then terms ++ [other] else other :: terms)
    end in
  match simplify_idx terms other k right with
  | None => rest
  | Some i =>
      match nth_error terms i with
      | None => raise IndexError
      | Some term =>
          match k with
          | MDiv dk =>
              if eqd other term then ret (pop_nth i terms)
              else if is_const term && is_const other
                      && (match size term, size other with Some a, Some b => a mod b =? 0 | _, _ => false end) then
                match term, size term, size other with
                | Const tk _, Some a, Some b => ret (set_nth i (Const tk (a / b)) terms)
                | _, _, _ => raise OtherException
                end
              else if is_div term dk right then
                match div_inputs term with
                | Some (num, den) => do den' <- rec (CMul false) den (ODim other); do d <- new_div num den' dk right; ret (set_nth i d terms)
                | None => raise OtherException
                end
              else rest
          | MMul =>
              match (if exact_by right term other then div_inputs term else None),
                    (if exact_by (negb right) other term then div_inputs other else None) with
              | Some (x, _), _ => ret (set_nth i x terms)
              | None, Some (x, _) => ret (set_nth i x terms)
              | None, None =>
                  match term, other with
                  | Const tk a, Const _ b => if a * b =? 1 then ret (pop_nth i terms) else ret (set_nth i (Const tk (a * b)) terms)
                  | _, _ => rest
                  end
              end
          end
      end
  end.

(** [_OpMultTerm.extend_mul_div_], _dim_extra.py 2578-2641. *)
Fixpoint mult_extend (other : dim) (k : mkind) (right : bool) (terms : list dim) {struct other} : M (list dim) :=
  if is_const_of other 1 then ret terms
  else match terms with
  | [] => match k with
          | MMul => ret [other]
          | MDiv dk => do d <- new_div (Const None 1) other dk right; ret [d]
          end
  | _ :: _ =>
      match other with
      | Der OMul a b =>
          if right then do t <- mult_extend a k right terms; mult_extend b k right t
          else do t <- mult_extend b k right terms; mult_extend a k right t
      | _ => extend_one terms other k right
      end
  end.

(** [_OpMultTerm.divisible], _dim_extra.py 2499-2522. *)
Definition divisible_one (terms : list dim) (other : dim) (right : bool) : M bool :=
  match recent right terms with
  | None => ret false
  | Some r =>
      if eqd other r then ret true
      else match size r, size other with
           | Some a, Some b => if b =? 0 then raise ZeroDivisionError else ret (a mod b =? 0)
           | _, _ => ret false
           end
  end.
Fixpoint divisible (other : dim) (right : bool) (terms : list dim) {struct other} : M bool :=
  match terms with
  | [] => ret false
  | _ :: _ =>
      match other with
      | Der OMul a b =>
          if right then
            do x <- divisible a right terms;
            if x then do t <- mult_extend a (MDiv Exact) right terms; do y <- divisible b right t;
                      if y then do _ <- mult_extend b (MDiv Exact) right t; ret true else ret false
            else ret false
          else
            do x <- divisible b right terms;
            if x then do t <- mult_extend b (MDiv Exact) right terms; do y <- divisible a right t;
                      if y then do _ <- mult_extend a (MDiv Exact) right t; ret true else ret false
            else ret false
      | _ => divisible_one terms other right
      end
  end.

(** [_OpMultTerm.can_simplify], _dim_extra.py 2524-2541. *)
Fixpoint can_simplify (other : dim) (k : mkind) (right : bool) (terms : list dim) {struct other} : M bool :=
  match other with
  | Der OMul a b =>
      if right then
        do x <- can_simplify a k right terms;
        if x then do t <- mult_extend a k right terms; do y <- can_simplify b k right t;
                  if y then do _ <- mult_extend b k right t; ret true else ret false
        else ret false
      else
        do x <- can_simplify b k right terms;
        if x then do t <- mult_extend b k right terms; do y <- can_simplify a k right t;
                  if y then do _ <- mult_extend a k right t; ret true else ret false
        else ret false
  | _ => ret (match simplify_idx terms other k right with Some _ => true | None => false end)
  end.

(** [_OpMultTerm.negative], _dim_extra.py 2491-2497. *)
Definition negative (t : list dim) : M (list dim) :=
  match t with
  | Const _ v :: t' => if v =? -1 then ret t' else mult_extend (Const None (-1)) MMul false t
  | _ => mult_extend (Const None (-1)) MMul false t
  end.

(** [_OpMultTerm.from_dim_factors], _dim_extra.py 2430-2436. *)
Definition from_dim_factors (l : list dim) : M (list dim) := foldM (fun t d => mult_extend d MMul true t) l [].

(** [_OpLinearTerm.as_dim], _dim_extra.py 2745-2754. A sum is the list of its products. *)
Definition lin_as_dim (l : list (list dim)) : M dim :=
  match l with
  | [] => ret (Const None 0)
  | t :: l' => do d <- mult_as_dim t; foldM (fun r t' => do d' <- mult_as_dim t'; bin_op false r d') l' d
  end.

(** [_OpLinearTerm.representative_tag], _dim_extra.py 2849-2854. *)
Definition lin_representative (l : list (list dim)) : option dim :=
  representative (flat_map (fun t => match representative t with Some d => [d] | None => [] end) l).
(** [_make_dim], _dim_extra.py 2835-2847. *)
Definition make_dim (l : list (list dim)) (o : operand) : dim :=
  match o with
  | OInt z => Const (match lin_representative l with Some d => kind_of d | None => None end) z
  | ODim d => d
  end.

Definition set_recent {A} (right : bool) (x : A) (l : list A) : list A := if right then removelast l ++ [x] else x :: tl l.
Definition pop_recent {A} (right : bool) (l : list A) : list A := if right then removelast l else tl l.
Definition push {A} (right : bool) (x : A) (l : list A) : list A := if right then l ++ [x] else x :: l.

(** the merge of two products with the same last factor, _dim_extra.py 2793-2805 *)
Definition merge_terms (right : bool) (recent term : list dim) (z : dim) : M (list dim) :=
  do ta <- from_dim_factors (removelast recent); do a <- mult_as_dim ta;
  do tb <- from_dim_factors (removelast term); do b <- mult_as_dim tb;
  do s <- (match is_const a, is_const b, size a, size b with
           | true, false, Some x, _ => if right then rec (CAdd true) b (OInt x) else rec (CAdd false) b (OInt x)
           | false, true, _, Some y => if right then rec (CAdd false) a (OInt y) else rec (CAdd true) a (OInt y)
           | _, _, _, _ => if right then rec (CAdd false) a (ODim b) else rec (CAdd false) b (ODim a)
           end);
  mult_extend z MMul true (mult_from_dim s).

(** [_OpLinearTerm.extend_add_sub_] for something that is not a sum, _dim_extra.py 2782-2809. *)
Definition add_one (sub right : bool) (other : dim) (l : list (list dim)) : M (list (list dim)) :=
  let term0 := mult_from_dim other in
  do neg0 <- negative term0;
  let '(term, neg) := if sub then (neg0, term0) else (term0, neg0) in
  match recent right l with
  | None => ret (push right term l)
  | Some r =>
      if mult_eq r neg then ret (pop_recent right l)
      else if mult_is_const r && mult_is_const term then
        ret (set_recent right (mult_from_dim (Const (kind_of other) (mult_const_value r + mult_const_value term))) l)
      else match recent true r, recent true term with
           | Some x, Some y =>
               if eqd x y then do m <- merge_terms right r term y; ret (set_recent right m l)
               else ret (push right term l)
           | _, _ => ret (push right term l)
           end
  end.
(** [_OpLinearTerm.extend_add_sub_], _dim_extra.py 2766-2809: the inputs of a sum are added one by one. *)
Fixpoint lin_add (sub right : bool) (other : dim) (l : list (list dim)) {struct other} : M (list (list dim)) :=
  if is_const_of other 0 then ret l
  else match other with
  | Der OAdd a b =>
      if right then do l1 <- lin_add sub right a l; lin_add sub right b l1
      else do l1 <- lin_add sub right b l; lin_add sub right a l1
  | _ => add_one sub right other l
  end.
(** [_OpLinearTerm.from_dim], _dim_extra.py 2720-2725. *)
Definition lin_from_dim (d : dim) : M (list (list dim)) := lin_add false true d [].

(** [_OpLinearTerm.extend_mul_div_], _dim_extra.py 2811-2833. *)
Definition lin_muldiv (l : list (list dim)) (o : operand) (k : mkind) (right : bool) : M (list (list dim)) :=
  let other := make_dim l o in
  do x <- (match k, right with
           | MMul, true =>
               do ok <- allM (can_simplify other k right) l;
               if ok then ret (l, other, right)
               else do l' <- lin_from_dim other; do other' <- lin_as_dim l; ret (l', other', false)
           | _, _ => ret (l, other, right)
           end);
  let '(l, other, r) := x in
  if is_const_of other 1 then ret l
  else
    do whole <- (match k with
                 | MDiv dk => if (2 <=? length l)%nat then do ok <- allM (divisible other r) l; ret (if ok then None else Some dk)
                              else ret None
                 | MMul => ret None
                 end);
    match whole with
    | Some dk => do n <- lin_as_dim l; do d <- new_div n other dk r; ret [mult_from_dim d]
    | None => mapMM (mult_extend other k r) l
    end.

(** the body of the operators, _dim_extra.py 2077-2280, when the cache has no answer *)
Definition compute (op : mop) (self : dim) (o : operand) : M dim :=
  do l <- lin_from_dim self;
  do l' <- (match op with
            | CAdd lf => lin_add false (negb lf) (make_dim l o) l
            | CSub lf => lin_add true (negb lf) (make_dim l o) l
            | CMul lf => lin_muldiv l o MMul (negb lf)
            | CDiv k lf => lin_muldiv l o (MDiv k) (negb lf)
            end);
  lin_as_dim l'.
End Algebra.

(** The operators of a dim, _dim_extra.py 2077-2286: [a + b] is [CAdd false], [b + a] with a number [b] is
    [CAdd true], [a - b] and [sub_right] are [CSub false], [sub_left] is [CSub true], [a * b] is [CMul false],
    [b * a] with a number [b] is [CMul true], [a // b] is [CDiv Floor false], [a / b] and [div_right] are
    [CDiv Exact false], [div_left] is [CDiv Exact true], [ceildiv_right] and [ceildiv_left] are [CDiv Ceil _], and
    [-a] is [CMul true] with -1. The budget [n] bounds the nesting of operators used within operators. *)
Fixpoint dim_op (eqd : dim -> dim -> bool) (pick : list entry -> mop -> dim -> operand -> option dim) (n : nat)
    (op : mop) (self : dim) (o : operand) : M dim :=
  match n with
  | O => raise OutOfFuel
  | S n' => cached pick op self o (compute eqd pick (dim_op eqd pick n') op self o)
  end.

(** [complete_dyn_size], _dim_extra.py 1099-1290, for one sequence, with the backends other than TensorFlow: the size
    of a dynamic dim is computed from the sizes of the two inputs of its op, a sum is clipped at zero. [env] has the
    sizes of the dynamic dims of the user for that sequence. *)
Fixpoint dyn_size (env : nat -> Z) (d : dim) : Z :=
  match d with
  | Var id _ _ s => match s with Some z => z | None => env id end
  | Const _ v => v
  | Der o a b =>
      match size (Der o a b) with
      | Some z => z
      | None =>
          let x := dyn_size env a in let y := dyn_size env b in
          match o with OAdd => Z.max 0 (x + y) | _ => op_value o x y end
      end
  end.

(** [get_dim_value], _dim_extra.py 1935-1993, for a batch of sequences: of a dim of the user the largest size (1968-1981),
    of a derived dim what [complete_dyn_size] computed from the values of the inputs, 1271-1290. *)
Definition max_list (l : list Z) : Z := fold_right Z.max 0 l.
Fixpoint dim_value (envs : list (nat -> Z)) (d : dim) : Z :=
  match d with
  | Var id _ _ s => match s with Some z => z | None => max_list (map (fun env => env id) envs) end
  | Const _ v => v
  | Der o a b =>
      match size (Der o a b) with
      | Some z => z
      | None =>
          let x := dim_value envs a in let y := dim_value envs b in
          match o with OAdd => Z.max 0 (x + y) | _ => op_value o x y end
      end
  end.
