(** What the product of two tensors with named dims should give. *)
From Verif Require Import Base TensorModel TensorSpec.
Local Open Scope nat_scope.

Fixpoint sum_to (n : nat) (f : nat -> Z) : Z := match n with 0 => 0%Z | S n => (sum_to n f + f n)%Z end.
Definition with_index (env : nat -> nat) (d k : nat) : nat -> nat := fun x => if x =? d then k else env x.
(** The sum over all indices of the dims [ds]. *)
Fixpoint sum_over (size : nat -> nat) (ds : list nat) (f : (nat -> nat) -> Z) (env : nat -> nat) : Z :=
  match ds with
  | [] => f env
  | d :: ds => sum_to (size d) (fun k => sum_over size ds f (with_index env d k))
  end.
(** The common dims as they are in [a], the other dims of [a], and the other dims of [b]. *)
Definition product_dims (a b : tensor) (reduce : list dim) : list dim :=
  filter (fun d => mem d (dims b) && negb (mem d reduce)) (dims a) ++ filter (fun d => negb (mem d (dims b))) (dims a) ++ filter (fun d => negb (mem d (dims a))) (dims b).
Definition product (size : nat -> nat) (a b : tensor) (reduce : list dim) (r : tensor) : Prop :=
  well size r /\ dims r = product_dims a b reduce /\
  forall env, inside size env (dims r) -> value r env = sum_over size (bases reduce) (fun e => value a e * value b e)%Z env.
