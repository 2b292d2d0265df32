(** What the cross entropy should give. *)
From Verif Require Import Base TensorModel TensorSpec MatmulSpec ReshapeSpec.
Local Open Scope nat_scope.

(** The entries for all classes. *)
Definition class_values (size : nat -> nat) (t : tensor) (axis : dim) (env : nat -> nat) : list Z :=
  map (fun c => value t (with_index env (d_base axis) c)) (seq 0 (size (d_base axis))).
(** The dims of the logits without the classes, and for each choice of their indices the cross entropy of the logits there with the
    target there. *)
Definition is_cross_entropy (size : nat -> nat) (ce : list Z -> list Z -> Z) (logits targets : tensor) (dense : bool) (axis : dim) (r : tensor) : Prop :=
  well size r /\ Permutation (bases (dims r)) (other_names logits axis) /\
  forall env, inside size env (dims r) ->
    value r env = ce (class_values size logits axis env) (if dense then class_values size targets axis env else [value targets env]).
(** The order that [torch.nn.functional.cross_entropy] needs. *)
Definition class_second (axis : dim) (ds : list dim) : list dim := match ds with [] => [axis] | d :: ds => d :: axis :: ds end.
(** If a dim is at place [i] in [a] and at place [j] in [b], then the one at [j] in [a] is at [i] in [b]. *)
Definition mirrored (a b : list dim) : Prop :=
  forall i j x y, nth_error (bases a) i = Some x -> nth_error (bases b) j = Some x -> nth_error (bases a) j = Some y -> nth_error (bases b) i = Some y.
(** The targets are classes ([dense] is false), or have a probability for each class; they have the dims of the logits. *)
Definition sparse_ok (sparse : option dim) (axis : dim) (dense : bool) : Prop := if dense then sparse = None else exists d, sparse = Some d /\ d_base d = d_base axis.
Definition targets_ok (logits targets : tensor) (axis : dim) (dense : bool) : Prop :=
  if dense then Permutation (bases (dims targets)) (bases (dims logits)) else Permutation (bases (dims targets)) (other_names logits axis).
(** The order of the targets, with the classes second. *)
Definition target_order (targets : tensor) (axis : dim) (dense : bool) : list dim :=
  class_second axis (if dense then filter (fun d => negb (deq d axis)) (dims targets) else dims targets).
