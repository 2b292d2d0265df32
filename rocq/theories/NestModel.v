(** Model of [gather_nested] on nested structures of tensors and dims
    (returnn/frontend/nested.py), as used for the state of hypotheses in a search.

    Tensors have named dims: an entry is addressed by a position for each dim.  The positions
    of other dims do not matter for it.  The extents of the raw arrays are left out: expanding
    or shrinking a dim to the maximum of its new sizes keeps all entries within the new
    sizes.  Structures are given by the list of their leaves. *)
From Coq Require Import List Bool Arith.
From Verif Require Import Base.
Import ListNotations.

(** A position in each dim.  /repo/returnn/frontend/array_.py:753-760. *)
Definition pos := nat -> nat.

(** Tensors.  /repo/returnn/frontend/nested.py:165-173. *)
Record tensor := mkTensor { tdims : list nat; tval : pos -> nat }.

(** A dim is static, or has a tensor of sizes.  /repo/returnn/frontend/nested.py:150-161. *)
Inductive dinfo := Static (n : nat) | Dyn (sizes : tensor).

(** The dims which exist; a dim is its position in this list.  New dims are appended.
    /repo/returnn/frontend/nested.py:158. *)
Definition store := list dinfo.

(** Leaves.  [LOther]: anything else, also None.  /repo/returnn/frontend/nested.py:165-181. *)
Inductive leaf := LTensor (t : tensor) | LDim (d : nat) | LOther.

(** The indices with their sparse dim.  /repo/returnn/frontend/nested.py:133-142. *)
Record indices := mkIdx { itensor : tensor; sparse : nat }.

(** Whether a dim is in a list.  /repo/returnn/frontend/nested.py:156. *)
Definition mem (d : nat) (l : list nat) : bool := existsb (Nat.eqb d) l.

(** A position with one dim changed.  /repo/returnn/frontend/array_.py:753-760. *)
Definition upd (r : pos) (d x : nat) : pos := fun k => if Nat.eqb k d then x else r k.

(** The dim map as an association list, the latest entry first.
    /repo/returnn/frontend/nested.py:143-144,159. *)
Definition dmap := list (nat * nat).
Fixpoint dget (d : nat) (m : dmap) : option nat :=
  match m with
  | [] => None
  | (a, b) :: m' => if Nat.eqb a d then Some b else dget d m'
  end.

(** [replace_dim_v2]: an error if the old dim is missing or the new dim is there already.
    /repo/returnn/frontend/dims.py:134-179. *)
Definition replace_dim (t : tensor) (d d' : nat) : res tensor :=
  if mem d (tdims t) then
    if mem d' (tdims t) then Err ValueError
    else Ok (mkTensor (map (fun k => if Nat.eqb k d then d' else k) (tdims t))
               (fun r => tval t (upd r d (r d'))))
  else Err ValueError.

(** The loop over the dims of a tensor.  /repo/returnn/frontend/nested.py:167-170. *)
Fixpoint replace_dims (m : dmap) (l : list nat) (t : tensor) : res tensor :=
  match l with
  | [] => Ok t
  | d :: l' =>
      match dget d m with
      | Some d' => let* t' := replace_dim t d d' in replace_dims m l' t'
      | None => replace_dims m l' t
      end
  end.

(** [gather]: the dims of the indices come in place of the axis; shared dims are batch dims.
    /repo/returnn/torch/frontend/_backend.py:1000-1006, /repo/returnn/frontend/array_.py:753-765. *)
Definition gather (t : tensor) (i : indices) : tensor :=
  let own := filter (fun d => negb (mem d (tdims t)) || Nat.eqb d (sparse i)) (tdims (itensor i)) in
  mkTensor (flat_map (fun d => if Nat.eqb d (sparse i) then own else [d]) (tdims t))
    (fun r => tval t (upd r (sparse i) (tval (itensor i) r))).

(** [_gather] of a tensor: /repo/returnn/frontend/nested.py:166-174. *)
Definition gather_tensor (m : dmap) (i : indices) (t : tensor) : res tensor :=
  let* t' := replace_dims m (tdims t) t in
  Ok (if mem (sparse i) (tdims t') then gather t' i else t').

(** [_gather_prepare_dims]: /repo/returnn/frontend/nested.py:150-162. *)
Definition prepare (i : indices) (st : store * dmap) (l : leaf) : res (store * dmap) :=
  let (s, m) := st in
  match l with
  | LDim d =>
      match nth_error s d with
      | Some (Dyn sz) =>
          match dget d m with
          | Some _ => Ok (s, m)
          | None =>
              if mem (sparse i) (tdims sz) then
                let* sz' := gather_tensor m i sz in
                Ok (s ++ [Dyn sz'], (d, length s) :: m)
              else Ok (s, m)
          end
      | _ => Ok (s, m)
      end
  | _ => Ok (s, m)
  end.

(** The first pass: /repo/returnn/frontend/nested.py:145. *)
Fixpoint prepare_all (i : indices) (ls : list leaf) (st : store * dmap) : res (store * dmap) :=
  match ls with
  | [] => Ok st
  | l :: ls' => let* st' := prepare i st l in prepare_all i ls' st'
  end.

(** [_gather]: /repo/returnn/frontend/nested.py:165-181. *)
Definition gather_leaf (s : store) (m : dmap) (i : indices) (l : leaf) : res leaf :=
  match l with
  | LTensor t => let* t' := gather_tensor m i t in Ok (LTensor t')
  | LDim d =>
      match nth_error s d with
      | Some (Dyn sz) =>
          match dget d m with
          | Some d' => Ok (LDim d')
          | None => let* _ := assert_ (negb (mem (sparse i) (tdims sz))) in Ok (LDim d)
          end
      | _ => Ok (LDim d)
      end
  | LOther => Err TypeError
  end.

(** [gather_nested]: /repo/returnn/frontend/nested.py:133-147, without a dim map given. *)
Definition gather_nested (s : store) (i : indices) (ls : list leaf) : res (list leaf * store * dmap) :=
  let* st := prepare_all i ls (s, []) in
  let* ls' := mapM (gather_leaf (fst st) (snd st) i) ls in
  Ok (ls', fst st, snd st).
