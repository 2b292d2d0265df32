(** What an elementwise operation on tensors with named dims should give. *)
From Coq Require Import Sorted.
From Verif Require Import Base TensorModel.
Local Open Scope nat_scope.

(** The names of the axes. *)
Definition bases (ds : list dim) : list nat := map d_base ds.
(** The entry of a tensor where each dim [d] has the index [env d]. *)
Definition value (t : tensor) (env : nat -> nat) : Z := at_ (traw t) (map env (bases (dims t))).
Definition inside (size env : nat -> nat) (ds : list dim) : Prop := Forall (fun d => env d < size d) (bases ds).
(** A tensor whose axes have different dims, and the sizes of these. *)
Definition well (size : nat -> nat) (t : tensor) : Prop :=
  shape (traw t) = map size (bases (dims t)) /\ length (data (traw t)) = prod (shape (traw t)) /\ NoDup (bases (dims t)).

(** All the dims of both, and at each place the operation on the entries of both at this place. *)
Definition elementwise (size : nat -> nat) (op : Z -> Z -> Z) (a b r : tensor) : Prop :=
  well size r /\ (forall c, In c (bases (dims r)) <-> In c (bases (dims a)) \/ In c (bases (dims b))) /\
  forall env, inside size env (dims r) -> value r env = op (value a env) (value b env).
(** One of both has all the dims. *)
Definition one_has_all (a b : tensor) : Prop := incl (bases (dims a)) (bases (dims b)) \/ incl (bases (dims b)) (bases (dims a)).
(** The dims come in the given order; those that are not in it are last. *)
Definition ordered (order : list dim) (ds : list dim) : Prop :=
  StronglySorted (fun x y => pos x (bases order) <= pos y (bases order)) (bases ds).
(** A permutation as it is documented: [None] stands for no match, otherwise each axis of the tensor is there once, and its dim
    is the dim at this place. *)
Definition a_permutation (own ds : list dim) (p : list (option nat)) : Prop :=
  length p = length ds /\ Permutation (somes p) (seq 0 (length own)) /\
  forall k j d, nth_error p k = Some (Some j) -> nth_error ds k = Some d -> exists o, nth_error own j = Some o /\ d_base o = d_base d.

(** What an operation of a tensor and a number should give: the operation on each element. *)
Definition each_right (k : kind) (a : list Z) (n : Z) (r : res outcome) : Prop :=
  forall l, r = Ok (Elements l) <-> mapM (fun x => sem k x n) a = Ok l.
Definition each_left (k : kind) (n : Z) (b : list Z) (r : res outcome) : Prop :=
  forall l, r = Ok (Elements l) <-> mapM (fun y => sem k n y) b = Ok l.
