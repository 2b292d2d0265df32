(* The sizes of the dims of a batch. *)
From Coq Require Import List Arith String.
From Verif Require Import Base PyDict ExternModel.
Import ListNotations.

(* A batch fits extern_data: all data have the batch dim first, only the second dim may be dynamic, the arrays have the
   right number of dims and static sizes; there are sequence lengths, one for each sequence. *)
Definition fits (batch_dim : nat) (dims : list dim) (num : nat) (r : raw) : Prop :=
  exists rest shape, dims = Dyn batch_dim :: rest /\ r_shape r = num :: shape /\ List.length shape = List.length rest /\
    (forall i n m, nth_error rest i = Some (Static n) -> nth_error shape i = Some m -> m = n) /\
    (forall d, nth_error rest 0 = Some (Dyn d) -> d <> batch_dim /\ exists lens, r_lens r = Some lens /\ List.length lens = num).

Definition batch_fits (batch_dim : nat) (template : list (string * list dim)) (num : nat) (batch : list (string * raw)) : Prop :=
  forall k dims, In (k, dims) template -> exists r, dget batch k = Some r /\ fits batch_dim dims num r.

(* data with the same time dim have the same sequence lengths *)
Definition same_lengths (template : list (string * list dim)) (batch : list (string * raw)) : Prop :=
  forall k1 k2 dims1 dims2 d r1 r2, In (k1, dims1) template -> In (k2, dims2) template ->
    nth_error dims1 1 = Some (Dyn d) -> nth_error dims2 1 = Some (Dyn d) ->
    dget batch k1 = Some r1 -> dget batch k2 = Some r2 -> r_lens r1 = r_lens r2.
