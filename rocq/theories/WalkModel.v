(** Model of the walk over the consumers of a tensor: /repo/returnn/frontend/graph.py, [walk_tensor_consumers]. Tensors are numbers;
    [consumers] gives what [get_tensor_consumers] does, lines 29-35 (of graph-based backends). *)
From Verif Require Import Base.
Local Open Scope nat_scope. Local Open Scope list_scope.

(** [x in seen], line 57: by identity *)
Definition is_seen (x : nat) (seen : list nat) : bool := existsb (Nat.eqb x) seen.
(** the test of a function which may be missing, lines 60, 62 *)
Definition test (f : option (nat -> bool)) (default : bool) (x : nat) : bool := match f with Some f => f x | None => default end.
(** The loop, lines 52-65. The fuel is for the recursion only. *)
Fixpoint walk (fuel : nat) (consumers : nat -> list nat) (filter_outputs ending_condition : option (nat -> bool)) (seen queue outputs : list nat) : res (list nat) :=
  match queue with
  | [] => Ok outputs
  | x :: queue =>
      match fuel with
      | O => Err OutOfFuel
      | S fuel =>
          if is_seen x seen then walk fuel consumers filter_outputs ending_condition seen queue outputs
          else
            let outputs := if test filter_outputs true x then outputs ++ [x] else outputs in
            if test ending_condition false x then Ok outputs
            else walk fuel consumers filter_outputs ending_condition (x :: seen) (queue ++ consumers x) outputs
      end
  end.
(** [walk_tensor_consumers], lines 38-65, in a graph with [n] tensors: there are not more steps than seeds and edges *)
Definition walk_tensor_consumers (n : nat) (consumers : nat -> list nat) (seeds : list nat) (filter_outputs ending_condition : option (nat -> bool)) : res (list nat) :=
  walk (length seeds + list_sum (map (fun x => length (consumers x)) (seq 0 n))) consumers filter_outputs ending_condition [] seeds [].
