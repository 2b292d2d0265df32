(** What a reduction over dims with sequence lengths should give: the frames after the end of a sequence do not count. *)
From Coq Require Import QArith.
From Verif Require Import Base TensorModel TensorSpec MatmulSpec ReduceModel.
Local Open Scope nat_scope.

(** All indices of the dims [ds]. *)
Fixpoint places (size : nat -> nat) (ds : list nat) (env : nat -> nat) : list (nat -> nat) :=
  match ds with
  | [] => [env]
  | d :: ds => flat_map (fun k => places size ds (with_index env d k)) (seq 0 (size d))
  end.
(** The index of the dim [c] is before the end of the sequence. *)
Definition in_sequence (dyn : nat -> option tensor) (env : nat -> nat) (c : nat) : bool :=
  match dyn c with Some t => (Z.of_nat (env c) <? value t env)%Z | None => true end.
Definition all_in (dyn : nat -> option tensor) (cs : list nat) (env : nat -> nat) : bool := forallb (in_sequence dyn env) cs.
(** The lengths of dims: each is a tensor; one without dims is the size of the dim, and the dims that lengths depend on do not
    depend on each other in a circle. *)
Record lengths_ok (size : nat -> nat) (dyn : nat -> option tensor) (rank : nat -> nat) : Prop := {
  len_well : forall c t, dyn c = Some t -> well size t;
  len_scalar : forall c t env, dyn c = Some t -> dims t = [] -> value t env = Z.of_nat (size c);
  len_nested : forall c t x, dyn c = Some t -> In x (bases (dims t)) -> rank x < rank c }.
(** A tensor that can be reduced over these dims: it has them, and the dims their lengths depend on; no axis is empty. *)
Record reducible (size : nat -> nat) (dyn : nat -> option tensor) (source : tensor) (axis : list dim) : Prop := {
  red_well : well size source;
  red_axes : NoDup (bases axis) /\ axis <> [] /\ incl (bases axis) (bases (dims source));
  red_lens : forall c t, In c (bases axis) -> dyn c = Some t -> incl (bases (dims t)) (bases (dims source));
  red_size : forall c, In c (bases (dims source)) -> 0 < size c }.
Definition rest (source : tensor) (axis : list dim) : list dim := filter (fun d => negb (mem d axis)) (dims source).
(** The entries that count. *)
Definition entries (size : nat -> nat) (dyn : nat -> option tensor) (axis : list dim) (source : tensor) (env : nat -> nat) : list Z :=
  map (value source) (filter (all_in dyn (bases axis)) (places size (bases axis) env)).
(** One value for a list of values, in any order. *)
Definition reduced (m : mode) (l : list Z) (x : Z) : Prop :=
  match m with
  | MSum => x = fold_right Z.add 0%Z l
  | MMax => In x l /\ forall y, In y l -> (y <= x)%Z
  | MMin => In x l /\ forall y, In y l -> (x <= y)%Z
  | MAll => x = of_bool (forallb truth l)
  | MAny => x = of_bool (existsb truth l)
  | MArgmax | MArgmin => False
  end.
(** The first index of a maximum (or, with [>=], of a minimum) of a function on the indices that count. *)
Definition first_best (le : Z -> Z -> Prop) (n : nat) (ok : nat -> bool) (f : nat -> Z) (k : nat) : Prop :=
  k < n /\ ok k = true /\ (forall j, j < n -> ok j = true -> le (f j) (f k)) /\ (forall j, j < k -> ok j = true -> ~ le (f k) (f j)).
(** The other dims that the lengths of the reduced dims depend on have indices before the end of the sequence. *)
Definition settled (dyn : nat -> option tensor) (axis : list dim) (env : nat -> nat) : Prop :=
  forall x t c, In x (bases axis) -> dyn x = Some t -> In c (bases (dims t)) -> ~ In c (bases axis) -> in_sequence dyn env c = true.

(** The number of elements of these dims, with the lengths, where the other dims have the indices [env]. *)
Definition elements (size : nat -> nat) (dyn : nat -> option tensor) (ds : list dim) (env : nat -> nat) : nat :=
  length (filter (all_in dyn (bases ds)) (places size (bases ds) env)).
(** Different dims; the lengths are between 0 and the size of the dim, and of two lengths that depend on other dims, one depends on all the dims
    the other depends on. *)
Record countable (size : nat -> nat) (dyn : nat -> option tensor) (ds : list dim) : Prop := {
  cnt_dims : NoDup (bases ds);
  cnt_range : forall c t env, In c (bases ds) -> dyn c = Some t -> inside size env (dims t) -> (0 <= value t env <= Z.of_nat (size c))%Z;
  cnt_nested : forall c1 c2 t1 t2, In c1 (bases ds) -> In c2 (bases ds) -> dyn c1 = Some t1 -> dyn c2 = Some t2 ->
    incl (bases (dims t1)) (bases (dims t2)) \/ incl (bases (dims t2)) (bases (dims t1));
  cnt_size : forall c t x, In c (bases ds) -> dyn c = Some t -> In x (bases (dims t)) -> 0 < size x }.
(** [settled], whatever the indices of the dims are. *)
Definition settled_outside (dyn : nat -> option tensor) (ds : list dim) (env : nat -> nat) : Prop :=
  forall e, (forall c, ~ In c (bases ds) -> e c = env c) -> settled dyn ds e.
(** The fraction at some indices. *)
Definition fraction (size : nat -> nat) (q : fractions) (env : nat -> nat) : Q :=
  nth (flat (map size (bases (q_dims q))) (map env (bases (q_dims q)))) (q_data q) 0%Q.
