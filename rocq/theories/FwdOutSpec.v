(** Vocabulary for C139. *)
From Coq Require Import String Sorted.
From Verif Require Import Base PyDict FwdOutModel.
Local Open Scope nat_scope. Local Open Scope list_scope.

Section Spec.
  Context {V : Type} (info : nat -> dim_info).
  (** A tensor: all dims are different, the batch and the time axis are two of them. *)
  Definition tensor_ok (t : @tensor V) : Prop :=
    NoDup (t_dims t) /\ (forall d, t_batch t = Some d -> In d (t_dims t)) /\ (forall d, t_time t = Some d -> In d (t_dims t) /\ t_batch t <> Some d).
  (** A dim with sequence lengths: it has no fixed size, and the sizes are known and have dims, or they are not known and it is not the batch dim. *)
  Definition has_seq_lens (d : dim_info) : bool :=
    match d_size d, d_ext d, d_batch d with None, Some true, _ | None, None, false => true | _, _, _ => false end.
  (** The place of a dim in the default order: batch, time, another one with sequence lengths, any other *)
  Definition rank (t : @tensor V) (d : nat) : nat :=
    if opt_eqb (t_batch t) (Some d) then 0 else if opt_eqb (t_time t) (Some d) then 1 else if has_seq_lens (info d) then 2 else 3.
  (** All dims of the tensor by rank, and no two of the same rank *)
  Definition default_order (t : @tensor V) (dims : list nat) : Prop :=
    Permutation (t_dims t) dims /\ StronglySorted (fun a b => rank t a < rank t b) dims.
  (** [out] has the same entry for each choice of an index per dim. *)
  Definition same_entries (t out : @tensor V) : Prop :=
    forall f : nat -> nat, t_data out (map f (t_dims out)) = t_data t (map f (t_dims t)).
  (** The tensor is accepted as the output [name], in the order [order]: the given one, or else the expected one, or else the default;
      and it is as expected. *)
  Definition accepted (expected : option (@dict string template)) (name : string) (t : @tensor V) (dims : option (list nat)) (order : list nat) : Prop :=
    Permutation (t_dims t) order /\
    (forall ds, dims = Some ds -> order = ds) /\
    (forall e, expected = Some e -> exists x, dget e name = Some x /\ order = x_dims x /\ t_dtype t = x_dtype x /\ t_sparse t = x_sparse x) /\
    (dims = None -> expected = None -> default_order t order).
  (** [out] is what is stored for it. *)
  Definition stored (t out : @tensor V) (order : list nat) : Prop :=
    t_dims out = order /\ same_entries t out /\ t_dtype out = t_dtype t /\ t_sparse out = t_sparse t.
  (** A mark of a forward step *)
  Definition mark_name (m : string * @tensor V * option (list nat)) : string := fst (fst m).
  Definition mark_tensor (m : string * @tensor V * option (list nat)) : @tensor V := snd (fst m).
  Definition mark_dims (m : string * @tensor V * option (list nat)) : option (list nat) := snd m.
  (** The names are the expected ones. *)
  Definition complete (expected : option (@dict string template)) (names : list string) : Prop :=
    forall e, expected = Some e -> forall k, In k (dkeys e) <-> In k names.
End Spec.
