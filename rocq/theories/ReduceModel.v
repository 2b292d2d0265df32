(** Model of reductions over dims with sequence lengths: [reduce] of /repo/returnn/torch/frontend/_backend.py, [get_mask] of
    /repo/returnn/tensor/_dim_extra.py, [get_sequence_mask_broadcast], [copy_masked] of /repo/returnn/tensor/_tensor_extra.py, and
    [num_elements_of_shape], [masked_fraction_of_shape] of /repo/returnn/frontend/dims.py.

    [size d] is the value of the dim with the name [d] (the size of each axis with this dim), and [dyn d] is its [dyn_size_ext], the tensor
    with the lengths, if it has one; a dim without one is static here. A capacity, caches, devices and dims derived from others are left out. *)
From Coq Require Import QArith.
From Verif Require Import Base TensorModel MatmulModel.
Local Open Scope nat_scope.

(** [need_masking], _dim_extra.py 968-982 *)
Definition need_masking (dyn : nat -> option tensor) (d : dim) : bool :=
  match dyn (d_base d) with Some t => 0 <? length (dims t) | None => false end.
(** [set(a).issubset(b)] *)
Definition subset (a b : list dim) : bool := forallb (fun d => mem d b) a.
(** [range_over_dim]: torch/frontend/_backend.py, the indices of a dim *)
Definition range_over (size : nat -> nat) (d : dim) : tensor :=
  {| dims := [d]; traw := tabulate [size (d_base d)] (fun i => Z.of_nat (hd 0 i)) |}.
Definition where_ (v m x : Z) : Z := if truth m then x else v.

(** [copy_masked] without [dims], _tensor_extra.py 2915-2977: [mask x] is the mask of a dim. [rf.where] (torch/frontend/_backend.py
    1190-1216) gives all the dims, here in the order of [t]. *)
Definition copy_masked (mask : dim -> res tensor) (dyn : nat -> option tensor) (t : tensor) (v : Z) : res tensor :=
  let axes := filter (fun x => need_masking dyn x && match dyn (d_base x) with Some l => subset (dims l) (dims t) | None => false end) (dims t) in
  match axes with
  | [] => Ok t
  | x :: axes =>
      let* m := mask x in
      let* m := fold_left (fun m x => let* m := m in
                                      let* m' := mask x in
                                      combine_tensors (fun a b => of_bool (truth a && truth b)) m m' (Some true) None) axes (Ok m) in
      combine_tensors (fun a m => where_ v m a) t m None None
  end.
(** [get_mask], _dim_extra.py 825-882. The maximum of the lengths (860-867) is that of the raw tensor, without a mask. The recursion
    goes to the dims of the lengths; it is unbounded in the code. *)
Fixpoint get_mask (fuel : nat) (size : nat -> nat) (dyn : nat -> option tensor) (d : dim) (order : list dim) : res tensor :=
  match fuel with
  | 0 => Err OutOfFuel
  | S fuel =>
      match dyn (d_base d) with
      | None => Err AssertionError
      | Some t =>
          let order := filter (fun x => mem x (dims t ++ [d])) order in
          match data (traw t) with
          | [] => Err OtherException
          | n :: ns =>
              let* s := copy_masked (fun x => get_mask fuel size dyn x (dims t)) dyn t (fold_left Z.max ns n) in
              combine_tensors (fun i n => of_bool (i <? n)%Z) (range_over size d) s (Some true) (Some order)
          end
      end
  end.

(** _backend.py 1479, 1500-1503 with [get_sequence_mask_broadcast], _tensor_extra.py 2831-2871: there is no [sequence_mask_raw] for PyTorch, so 2870 is
    taken. That a batch dim has no mask (2849) is left out. *)
Definition mask_axis (fuel : nat) (size : nat -> nat) (dyn : nat -> option tensor) (v : Z) (ds : list dim) (r : raw) (d : dim) : res raw :=
  if need_masking dyn d then
    let* i := axis_of ds d in
    let tag := nth i ds d in
    match dyn (d_base tag) with
    | None => Err AssertionError
    | Some l =>
        let* _ := assert_ (subset (dims l) ds) in
        let* m := get_mask fuel size dyn tag ds in
        let* m := compatible_raw m ds in
        map2 (where_ v) m r
    end
  else Ok r.

(** * The reductions of PyTorch *)
Inductive mode := MSum | MMax | MMin | MAll | MAny | MArgmax | MArgmin.
Fixpoint zpos (x : Z) (l : list Z) : nat :=
  match l with
  | [] => 0
  | y :: l => if (x =? y)%Z then 0 else S (zpos x l)
  end.
Definition best_of (f : Z -> Z -> Z) (l : list Z) : Z := match l with [] => 0%Z | x :: l => fold_left f l x end.
(** the first position with the best value is the result of [argmax] and [argmin] *)
Definition reduce_list (m : mode) (l : list Z) : Z :=
  match m with
  | MSum => fold_right Z.add 0%Z l
  | MMax => best_of Z.max l
  | MMin => best_of Z.min l
  | MAll => of_bool (forallb truth l)
  | MAny => of_bool (existsb truth l)
  | MArgmax => Z.of_nat (zpos (best_of Z.max l) l)
  | MArgmin => Z.of_nat (zpos (best_of Z.min l) l)
  end.
Definition picks (m : mode) : bool := match m with MMax | MMin | MArgmax | MArgmin => true | _ => false end.
(** the reduction over some axes of a raw tensor; the entries come in the order of these axes *)
Definition reduce_axes (f : list Z -> Z) (r : raw) (axes : list nat) : raw :=
  let n := length (shape r) in
  let rest := filter (fun a => negb (inb a axes)) (seq 0 n) in
  tabulate (axes_shape (shape r) rest)
    (fun i => f (map (fun p => let u := unflat (axes_shape (shape r) axes) p in
                               at_ r (map (fun a => if inb a axes then nth (pos a axes) u 0 else nth (pos a rest) i 0) (seq 0 n)))
                     (seq 0 (prod (axes_shape (shape r) axes))))).

(** _backend.py 1482-1499: [lo] and [hi] are the lowest and the highest number of the dtype *)
Definition mask_value (lo hi : Z) (m : mode) : Z :=
  match m with
  | MMax | MArgmax => lo
  | MMin | MArgmin => hi
  | MSum => 0%Z
  | MAll => 1%Z
  | MAny => 0%Z
  end.
(** [reduce], _backend.py 1461-1522, but for [mean] (below) and [logsumexp]. Without any remaining dim all axes are reduced (1505-1506), in their
    order in the tensor. An empty reduction has no maximum; [torch.max] and others take one axis only (1507-1513). An empty list of axes is left out. *)
Definition reduce (fuel : nat) (size : nat -> nat) (dyn : nat -> option tensor) (lo hi : Z) (m : mode) (source : tensor) (axis : list dim) (use_mask : bool) : res tensor :=
  let* raw_dims := mapM (axis_of (dims source)) axis in
  let res_dims := map snd (filter (fun '(i, _) => negb (inb i raw_dims)) (enumerated (dims source))) in
  let* r :=
    if use_mask && existsb (need_masking dyn) axis then
      fold_left (fun r d => let* r := r in mask_axis fuel size dyn (mask_value lo hi m) (dims source) r d) axis (Ok (traw source))
    else Ok (traw source) in
  let all := length res_dims =? 0 in
  let axes := if all then seq 0 (length (dims source)) else raw_dims in
  if picks m && (prod (axes_shape (shape r) axes) =? 0) then Err OtherException
  else if picks m && negb all && negb (length raw_dims =? 1) then Err TypeError
  else Ok {| dims := res_dims; traw := reduce_axes (reduce_list m) r axes |}.

(** * The number of elements *)
Definition scalar (x : Z) : tensor := {| dims := []; traw := {| shape := []; data := [x] |} |}.
Definition static (dyn : nat -> option tensor) (d : dim) : bool := match dyn (d_base d) with Some _ => false | None => true end.
(** [get_size_tensor], _dim_extra.py 1915-1931, or the size of a static dim *)
Definition size_tensor (size : nat -> nat) (dyn : nat -> option tensor) (d : dim) : tensor :=
  match dyn (d_base d) with Some t => t | None => scalar (Z.of_nat (size (d_base d))) end.
(** dims.py 248-255: the lengths of some other of the dims depend on this one *)
Definition related (dyn : nat -> option tensor) (ds : list dim) (i : nat) (d : dim) : bool :=
  existsb (fun '(j, d') => negb (i =? j) && match dyn (d_base d') with Some t => mem d (dims t) | None => false end) (enumerated ds).
(** [num_elements_of_shape] with [use_mask], dims.py 222-266. A number is a tensor without dims here. *)
Definition num_elements (fuel : nat) (size : nat -> nat) (dyn : nat -> option tensor) (ds : list dim) : res tensor :=
  if forallb (static dyn) ds then Ok (scalar (fold_left (fun n d => n * Z.of_nat (size (d_base d)))%Z ds 1%Z))
  else
    match ds with
    | [d] => Ok (size_tensor size dyn d)
    | _ =>
        let* (n, postponed) := fold_left (fun st '(i, d) =>
           let* (n, postponed) := st in
           if related dyn ds i d then Ok (n, postponed ++ [d])
           else let* n := combine_tensors Z.mul n (size_tensor size dyn d) None None in Ok (n, postponed)) (enumerated ds) (Ok (scalar 1, [])) in
        match postponed with
        | [] => Ok n
        | _ => reduce fuel size dyn 0%Z 0%Z MSum n postponed true
        end
    end.

(** a tensor of fractions *)
Record fractions := { q_dims : list dim; q_data : list Q }.
(** [reduce] with [mean], _backend.py 1490-1492, 1514-1519, with [masked_fraction_of_shape], dims.py 269-283, [inverse]: in exact arithmetic. [torch.mean] divides by the number
    of all entries; the correction is the number of all by the number of those that count. *)
Definition reduce_mean (fuel : nat) (size : nat -> nat) (dyn : nat -> option tensor) (source : tensor) (axis : list dim) (use_mask : bool) : res fractions :=
  let total := inject_Z (fold_left (fun n d => n * Z.of_nat (size (d_base d)))%Z axis 1%Z) in
  let masked := use_mask && existsb (need_masking dyn) axis in
  let* s := reduce fuel size dyn 0%Z 0%Z MSum source axis use_mask in
  let positions := map (unflat (shape (traw s))) (seq 0 (prod (shape (traw s)))) in
  if masked then
    let* n := num_elements fuel size dyn axis in
    let* c := compatible_raw n (dims s) in
    Ok {| q_dims := dims s; q_data := map (fun i => (inject_Z (at_ (traw s) i) / total) * (total / inject_Z (at_ c (broadcast_index (shape c) i))))%Q positions |}
  else Ok {| q_dims := dims s; q_data := map (fun i => inject_Z (at_ (traw s) i) / total)%Q positions |}.
