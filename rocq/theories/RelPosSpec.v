(** What relative positions in self-attention should give. *)
From Verif Require Import Base TensorModel TensorSpec MatmulSpec ReshapeSpec.
Local Open Scope nat_scope.

(** The scores of each query [axis] with each relative position [pos] (from -(q - 1) to kv - 1, thus 0 is at index q - 1) become the
    scores of each query with each key [hist]: the entry for query [t] and key [s] is the one for the relative position s - t. *)
Definition by_distance (size : nat -> nat) (x : tensor) (axis pos hist : dim) (r : tensor) : Prop :=
  well size r /\ Permutation (bases (dims r)) (d_base hist :: other_names x pos) /\
  forall env, inside size env (dims r) ->
    value r env = value x (with_index env (d_base pos) (size (d_base axis) - 1 + env (d_base hist) - env (d_base axis))).
(** The entries of [x] are a function of the relative position, given by the list [l]. *)
Definition scores_of (size : nat -> nat) (x : tensor) (pos : dim) (l : list Z) (score : (nat -> nat) -> Z -> Z) : Prop :=
  forall env, inside size env (dims x) -> value x env = score env (nth (env (d_base pos)) l 0%Z).
(** A score that does not depend on the index of this dim. *)
Definition independent (d : dim) (score : (nat -> nat) -> Z -> Z) : Prop :=
  forall e e' i, (forall c, c <> d_base d -> e c = e' c) -> score e i = score e' i.

(** The row for the relative position [i] of a table whose middle row (causal: last row) is the one of position 0; the first and the
    last row are for all positions outside. *)
Definition row_for (clipping : nat) (causal : bool) (i : Z) : nat :=
  if (i <? - Z.of_nat clipping)%Z then 0
  else if (0 <? i)%Z then (if causal then clipping else if (Z.of_nat clipping <? i)%Z then 2 * clipping else Z.to_nat (Z.of_nat clipping + i))
  else Z.to_nat (Z.of_nat clipping + i).
(** The dims: [pos] has q + kv - 1 entries, the others are new ones of the right sizes. *)
Definition shiftable (size : nat -> nat) (x : tensor) (axis pos hist padded cut : dim) : Prop :=
  well size x /\ In (d_base axis) (bases (dims x)) /\ In (d_base pos) (bases (dims x)) /\ d_base axis <> d_base pos /\ d_base pos <> d_base hist /\
  0 < size (d_base axis) /\ size (d_base pos) = size (d_base axis) + size (d_base hist) - 1 /\
  (forall d, In d [hist; padded; cut] -> ~ In (d_base d) (other_names x pos)) /\
  size (d_base padded) = S (size (d_base pos)) /\ size (d_base cut) = size (d_base pos).
