(** Vocabulary for C143. *)
From Coq Require Import String.
From Verif Require Import Base PyDict TDictModel.
Local Open Scope nat_scope. Local Open Scope list_scope.

Section Spec.
  Context {V : Type}.
  (** The same tensors without their content *)
  Definition template (td : list (string * @tensor V)) : list (string * @tensor V) :=
    map (fun x => (fst x, {| t_dims := t_dims (snd x); t_raw := RNone |})) td.
  Definition all_dims (td : list (string * @tensor V)) : list nat := flat_map (fun x => t_dims (snd x)) td.
  (** Another state of the same dim: only the content of its sizes may be different, and whether a batch dim has its size as a tensor *)
  Definition same_kind (a b : @dim V) : Prop :=
    d_batch a = d_batch b /\ d_size a = d_size b /\
    if d_batch a then (forall h v, d_ext a = Some (h, v) -> h = false) /\ (forall h v, d_ext b = Some (h, v) -> h = false)
    else option_map fst (d_ext a) = option_map fst (d_ext b).
  (** The size of a dim which is not static: its tensor, or else for a batch dim the known value; and whether it is one number for the whole batch *)
  Definition has_size (d : @dim V) (v : raw) : Prop :=
    (exists h, d_ext d = Some (h, v) /\ (d_batch d = true -> v <> RNone)) \/
    (d_batch d = true /\ (d_ext d = None \/ exists h, d_ext d = Some (h, RNone)) /\ d_value d = Ok v).
  Definition is_static (d : @dim V) : Prop := d_batch d = false /\ d_ext d = None.
  Definition is_scalar (d : @dim V) : Prop := d_batch d = true \/ exists v, d_ext d = Some (false, v).
  (** [after] has the sizes of [src]; if scalars are left out they are reset. *)
  Definition restored (o : opts) (src after : @dim V) : Prop :=
    (is_static src -> d_ext after = None) /\
    (~ is_static src -> o_scalar o = false -> is_scalar src -> exists h, d_ext after = Some (h, RNone)) /\
    (~ is_static src -> (o_scalar o = true \/ ~ is_scalar src) -> exists h v, has_size src v /\ d_ext after = Some (h, v)).
End Spec.
