(** Model of the assignment to a part of a parameter: /repo/returnn/frontend/parameter.py [Parameter.assign_key],
    /repo/returnn/frontend/_utils.py [strided_slice_raw_key], [_slice_value_is_reduce], and [parameter_assign_key] of
    /repo/returnn/torch/frontend/_backend.py.

    The keys are numbers, slices and vectors; a scalar tensor or array is as a number, and a vector is the same as tensor or array. The
    axes are given, so that [_slice_find_sparse_dim] is not needed; device and dtype are left out. *)
From Verif Require Import Base TensorModel MatmulModel.
Local Open Scope nat_scope.

Inductive key := KInt (i : Z) | KSlice (start stop step : option Z) | KIndices (l : list Z).
(** [_slice_value_is_reduce], _utils.py 284-299 *)
Definition is_reduce (k : key) : bool := match k with KInt _ => true | _ => false end.

(** * Indexing of a raw tensor with a tuple: PyTorch, by its documentation; a new axis is [None] in python. *)
Inductive item := NewAxis | Item (k : key).
Inductive sel := New | One (n : nat) | Many (l : list nat).
Definition wrap (n : nat) (i : Z) : res nat :=
  if (i <? 0)%Z then (if (0 <=? i + Z.of_nat n)%Z then Ok (Z.to_nat (i + Z.of_nat n)) else Err IndexError)
  else if (i <? Z.of_nat n)%Z then Ok (Z.to_nat i) else Err IndexError.
(** one end of a slice *)
Definition slice_end (n : nat) (default : nat) (o : option Z) : nat :=
  match o with
  | None => default
  | Some i => Z.to_nat (Z.min (Z.of_nat n) (if (i <? 0)%Z then i + Z.of_nat n else i)%Z)
  end.
(** range(lo, hi, step), at most [fuel] *)
Fixpoint range_step (fuel lo hi step : nat) : list nat :=
  match fuel with
  | 0 => []
  | S fuel => if lo <? hi then lo :: range_step fuel (lo + step) hi step else []
  end.
Definition select_key (n : nat) (k : key) : res sel :=
  match k with
  | KInt i => let* i := wrap n i in Ok (One i)
  | KSlice start stop step =>
      let step := match step with Some s => s | None => 1%Z end in
      if (step <=? 0)%Z then Err ValueError
      else Ok (Many (range_step n (slice_end n 0 start) (slice_end n n stop) (Z.to_nat step)))
  | KIndices l => let* l := mapM (wrap n) l in Ok (Many l)
  end.
Fixpoint resolve (items : list item) (s : list nat) : res (list sel) :=
  match items, s with
  | [], s => Ok (map (fun n => Many (seq 0 n)) s)
  | NewAxis :: items, s => let* r := resolve items s in Ok (New :: r)
  | Item k :: items, n :: s =>
      let* x := select_key n k in
      let* r := resolve items s in
      Ok (x :: r)
  | Item _ :: _, [] => Err IndexError
  end.
Definition view_shape (sels : list sel) : list nat := flat_map (fun x => match x with New => [1] | One _ => [] | Many l => [length l] end) sels.
(** where an index of the tensor is in the selected part. For vectors without an entry twice; with more than one vector PyTorch pairs
    their entries, which is not modelled. *)
Fixpoint view_index (sels : list sel) (i : list nat) : option (list nat) :=
  match sels, i with
  | New :: sels, i => match view_index sels i with Some v => Some (0 :: v) | None => None end
  | One n :: sels, k :: i => if k =? n then view_index sels i else None
  | Many l :: sels, k :: i =>
      if inb k l then match view_index sels i with Some v => Some (pos k l :: v) | None => None end else None
  | _, _ => Some []
  end.
(** axes of size 1 at the front of the value are dropped, then it is broadcast *)
Fixpoint drop_ones (s : list nat) : list nat :=
  match s with
  | 1 :: s => drop_ones s
  | s => s
  end.
Definition expands (s view : list nat) : bool :=
  (length s <=? length view) && forallb (fun '(a, b) => (a =? 1) || (a =? b)) (combine (pad_shape (length view) s) view).
(** raw[key] = value, or raw[key] += value: [op] gets the old and the new entry *)
Definition set_items (op : Z -> Z -> Z) (r : raw) (items : list item) (v : raw) : res raw :=
  let* sels := resolve items (shape r) in
  let v := {| shape := drop_ones (shape v); data := data v |} in
  if expands (shape v) (view_shape sels) then
    Ok (tabulate (shape r) (fun i => match view_index sels i with
                                     | Some j => op (at_ r i) (at_ v (broadcast_index (shape v) j))
                                     | None => at_ r i
                                     end))
  else Err OtherException.

(** * [strided_slice_raw_key], _utils.py 169-244 *)
Fixpoint lookup (i : nat) (keys : list (nat * key)) : option key :=
  match keys with
  | [] => None
  | (j, k) :: keys => if i =? j then Some k else lookup i keys
  end.
Fixpoint put {A} (i : nat) (x : A) (l : list A) : list A :=
  match l, i with
  | [], _ => []
  | _ :: l, 0 => x :: l
  | y :: l, S i => y :: put i x l
  end.
(** _utils.py 219-240: the keys per raw axis and the dims of the result *)
Fixpoint several_loop (ds : list dim) (todo : list (dim * key * option dim)) (keys : list (nat * key)) (out : list (option dim))
  : res (list (nat * key) * list (option dim)) :=
  match todo with
  | [] => Ok (keys, out)
  | (axis, k, kd) :: todo =>
      let* i := axis_of ds axis in
      match lookup i keys with
      | Some _ => Err ValueError
      | None =>
          let keys := keys ++ [(i, k)] in
          if is_reduce k then several_loop ds todo keys (put i None out)
          else match kd with
               | None => Err TypeError
               | Some d => several_loop ds todo keys (put i (Some d) out)
               end
      end
  end.
Definition present (out : list (option dim)) : list dim := flat_map (fun o => match o with Some d => [d] | None => [] end) out.
(** _utils.py 241-244; [get] of the dict gives [None] for an axis without a key *)
Definition several_items (keys : list (nat * key)) : list item :=
  map (fun i => match lookup i keys with Some k => Item k | None => NewAxis end) (seq 0 (S (list_max (map fst keys)))).

Inductive key_arg := NoKey | Single (k : key) | Several (l : list key).
Inductive dim_arg := NoDim | ADim (d : dim) | Dims (l : list (option dim)).
Definition raw_key (ds : list dim) (axis : dim_arg) (k : key_arg) (key_dim : dim_arg) : res (list item * list dim) :=
  match k with
  | NoKey | Several [] => Ok ([Item (KSlice None None None)], ds)   (* 184-185 *)
  | Single k =>   (* 188-203 *)
      match axis with
      | ADim a =>
          let* i := axis_of ds a in
          let* out := if is_reduce k then Ok (firstn i ds ++ skipn (S i) ds)
                      else match key_dim with
                           | ADim d => Ok (firstn i ds ++ d :: skipn (S i) ds)
                           | _ => Err TypeError
                           end in
          Ok (repeat NewAxis i ++ [Item k], out)
      | _ => Err TypeError
      end
  | Several l =>   (* 206-244 *)
      match axis with
      | Dims axes =>
          if negb (length axes =? length l) then Err ValueError
          else
            let* kds := match key_dim with
                        | NoDim => Ok (map (fun _ => None) l)
                        | Dims kds => if length kds =? length l then Ok kds else Err ValueError
                        | ADim _ => Err TypeError
                        end in
            let* todo := mapM (fun '(a, k, kd) => match a with Some a => Ok (a, k, kd) | None => Err TypeError end)
                           (combine (combine axes l) kds) in
            let* (keys, out) := several_loop ds todo [] (map Some ds) in
            Ok (several_items keys, present out)
      | _ => Err TypeError
      end
  end.

(** [parameter_assign_key], _backend.py 789-809 *)
Definition assign_key (op : Z -> Z -> Z) (param : tensor) (axis : dim_arg) (k : key_arg) (key_dim : dim_arg) (value : tensor) : res tensor :=
  let* (items, ds) := raw_key (dims param) axis k key_dim in
  let* v := compatible_raw value ds in
  let* r := set_items op (traw param) items v in
  Ok {| dims := dims param; traw := r |}.
