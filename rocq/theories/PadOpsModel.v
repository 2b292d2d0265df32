(** Model of the operations on padded sequences: /repo/returnn/frontend/array_.py [pad], [slice], [shift_right], [shift_left],
    [reverse_sequence], [window], [masked_select], [masked_scatter], [pack_padded], [pad_packed], with
    /repo/returnn/torch/frontend/_backend.py [pad], [gather], [slice], [masked_select], [masked_scatter].

    A batch is the list of the sequence lengths and the list of the rows of the padded tensor, as in [ConvModel]: one batch dim
    and one dynamic spatial dim (with one size per sequence, thus [need_masking]). A frame is a value of any type (all features
    together). *)
From Verif Require Import Base.
From Verif Require Import ConvModel.
Local Open Scope nat_scope.

Section Frames.
Context {A : Type}.

(** the [value] of [pad]: the default None, a number (or a tensor without dims), or a tensor with one value per sequence *)
Inductive pad_value := NoValue | Scalar (v : A) | PerSeq (vs : list A).

(** [torch.where] with a mask [t < n] over the frames of an out dim of [m] frames. The tensor and the mask have the same number
    of frames, otherwise an error (broadcasting of a single frame is not modelled). *)
Definition where_before (m n : nat) (v : A) (row : list A) : res (list A) :=
  if length row =? m then Ok (masked v n row) else Err OtherException.

(** _backend.py 485-492: [torch.nn.functional.pad] in constant mode; no value is zero *)
Definition pad_rows (zero : A) (left right : nat) (value : pad_value) (rows : list (list A)) : list (list A) :=
  match value with
  | NoValue => map (fun row => repeat zero left ++ row ++ repeat zero right) rows
  | Scalar v => map (fun row => repeat v left ++ row ++ repeat v right) rows
  | PerSeq vs => (* _backend.py 493-501: concat with the value *)
      map (fun vr => snd vr ++ [fst vr]) (combine vs rows)
  end.

(** _backend.py 502-533: with [handle_dynamic_dims], the value after the end of each sequence. [torch.where] does not take
    None. *)
Definition pad_masking (left right : nat) (value : pad_value) (lens : list nat) (rows : list (list A)) : res (list (list A)) :=
  if right =? 0 then Ok rows
  else
    let m := left + dim_value lens + right in
    match value with
    | NoValue => Err OtherException
    | Scalar v => mapM (fun nr => where_before m (left + fst nr) v (snd nr)) (combine lens rows)
    | PerSeq vs => mapM (fun vnr => where_before m (left + fst (snd vnr)) (fst vnr) (snd (snd vnr))) (combine vs (combine lens rows))
    end.

(** array_.py 452-494 and _backend.py 441-534: [pad] of one dynamic axis in constant mode with numbers of frames left and right.
    [handle] is [handle_dynamic_dims] after its default is applied. *)
Definition pad (zero : A) (handle : bool) (left right : nat) (value : pad_value) (lens : list nat) (rows : list (list A))
  : res (list nat * list (list A)) :=
  let rows := pad_rows zero left right value rows in
  let* rows := if handle then pad_masking left right value lens rows else Ok rows in
  Ok (map (fun n => left + n + right) lens, rows).

(** [torch.narrow] *)
Definition narrow (start len : Z) (row : list A) : res (list A) :=
  let L := Z.of_nat (length row) in
  if (len <? 0)%Z then Err OtherException
  else if ((start <? - L) || (L <? start))%Z then Err OtherException
  else
    let start := if (start <? 0)%Z then (start + L)%Z else start in
    if (L - len <? start)%Z then Err OtherException
    else Ok (firstn (Z.to_nat len) (skipn (Z.to_nat start) row)).

(** the arguments of [slice]: [start] an int or a scalar tensor, [end] an int, [size] an int or a dim with its sizes *)
Inductive slice_start := NoStart | StartInt (z : Z) | StartTensor (z : Z).
Inductive slice_size := NoSize | SizeInt (n : nat) | SizeDim (lens : list nat).

(** subtraction of dims, tensor/_dim_extra.py 1246-1247 *)
Definition relu (z : Z) : nat := Z.to_nat z.

(** array_.py 1019-1061: the sizes of [out_dim]. A negative static size is not modelled (an error). *)
Definition slice_dim (lens : list nat) (start : slice_start) (stop : option Z) : res (list nat) :=
  match start with
  | StartTensor s =>
      mapM (fun n => let n := Z.of_nat n in
                     if (n =? 0)%Z then Err OtherException
                     else Ok (Z.to_nat (((match stop with None => n | Some e => e end) - s) mod n))) lens
  | _ =>
      let s := match start with StartInt z => z | _ => 0%Z end in
      let static z := if (z <? 0)%Z then Err OtherException else Ok (map (fun _ => Z.to_nat z) lens) in
      if (0 <=? s)%Z then
        match stop with
        | None => Ok (map (fun n => relu (Z.of_nat n - s)) lens)
        | Some e =>
            if (e <? 0)%Z then Ok (map (fun n => relu (Z.of_nat (relu (Z.of_nat n - s)) - (- e))) lens)
            else static (e - s)%Z
        end
      else
        match stop with
        | None => static (- s)%Z
        | Some e => if (e <? 0)%Z then static (- s + e)%Z else Err AssertionError
        end
  end.

(** array_.py 1016-1070: the checks and [out_dim]; [step] None is 1 *)
Definition slice_out (lens : list nat) (start : slice_start) (stop : option Z) (step : nat) (size : slice_size)
  : res (list nat) :=
  if step =? 0 then Err ValueError
  else
    match size with
    | SizeDim ls => let* _ := assert_ (step =? 1) in Ok ls
    | SizeInt k => let* _ := assert_ (step =? 1) in Ok (map (fun _ => k) lens)
    | NoSize =>
        let* ls := slice_dim lens start stop in
        Ok (if step =? 1 then ls else map (fun n => ceildiv n step) ls)
    end.

(** array_.py 989-1074 and _backend.py 1146-1179: [slice]; the raw tensor does not depend on [step] *)
Definition slice (lens : list nat) (rows : list (list A)) (start : slice_start) (stop : option Z) (step : nat)
    (size : slice_size) : res (list nat * list (list A)) :=
  let* ls := slice_out lens start stop step size in
  let s := match start with NoStart => 0%Z | StartInt z => z | StartTensor z => z end in
  let* rows :=
    match size with
    | NoSize =>
        let e := match stop with None => Z.of_nat (dim_value lens) | Some e => e end in
        mapM (narrow s (e - s)) rows
    | SizeInt k => let* _ := assert_ (match stop with None => true | _ => false end) in mapM (narrow s (Z.of_nat k)) rows
    | SizeDim ls =>
        let* _ := assert_ (match stop with None => true | _ => false end) in mapM (narrow s (Z.of_nat (dim_value ls))) rows
    end in
  Ok (ls, rows).

(** array_.py 1077-1081 *)
Definition shift_right (zero : A) (handle : bool) (amount : nat) (value : pad_value) (lens : list nat) (rows : list (list A))
  : res (list nat * list (list A)) :=
  let* (plens, prows) := pad zero handle amount 0 value lens rows in
  slice plens prows NoStart None 1 (SizeDim lens).

(** array_.py 1084-1090 *)
Definition shift_left (zero : A) (amount : nat) (value : pad_value) (lens : list nat) (rows : list (list A))
  : res (list nat * list (list A)) :=
  let* (plens, prows) := pad zero true 0 amount value lens rows in
  slice plens prows (StartInt (Z.of_nat amount)) None 1 (SizeDim lens).

(** an index of [torch.gather] *)
Definition gather1 {T} (row : list T) (i : Z) : res T :=
  if (i <? 0)%Z then Err IndexError
  else match nth_error row (Z.to_nat i) with Some a => Ok a | None => Err IndexError end.

(** [torch.clamp]: the maximum counts if the minimum is above it *)
Definition clamp (lo hi z : Z) : Z := Z.min (Z.max z lo) hi.

(** array_.py 1093-1108 with _backend.py 992-999: [reverse_sequence] *)
Definition reverse_sequence (handle : bool) (lens : list nat) (rows : list (list A)) : res (list nat * list (list A)) :=
  let* rows :=
    if handle then
      mapM (fun nr =>
              let n := Z.of_nat (fst nr) in
              mapM (fun t => gather1 (snd nr) (clamp 0 (n - 1) (n - Z.of_nat t - 1))) (seq 0 (dim_value lens)))
           (combine lens rows)
    else Ok (map (@rev A) rows) in
  Ok (lens, rows).

(** [torch.reshape] of a flat row into [m] rows with [k] frames *)
Definition reshape2 (m k : nat) (flat : list A) : res (list (list A)) :=
  if length flat =? m * k then Ok (map (fun i => firstn k (skipn (i * k) flat)) (seq 0 m)) else Err OtherException.

(** array_.py 389-404: the windows of one row [p] of the tensor with its padding, with stride 1: [final[w][t]] for the window
    frames [w] and the [out] positions [t], here read with the position first. [merge_dims] leaves a flat dim without masking,
    thus the frames are added after the flat row (array_.py 161-207). *)
Definition window_row1 (zero : A) (W out : nat) (value : pad_value) (p : list A) : res (list (list A)) :=
  let v := match value with Scalar v => v | _ => zero end in
  let flat := concat (repeat p W) ++ repeat v W in
  let* rs := reshape2 W (out + W) flat in
  let* rs := mapM (narrow 0 (Z.of_nat out)) rs in
  Ok (map (fun t => map (fun r => nth t r zero) rs) (seq 0 out)).

(** array_.py 382-387: the windows with a stride; [out] is the size of the strided out dim *)
Definition window_row_strided (W s out : nat) (p : list A) : res (list (list A)) :=
  mapM (fun t => mapM (fun w => gather1 p (Z.of_nat (t * s + w))) (seq 0 W)) (seq 0 out).

(** array_.py 361-368: the frames left and right *)
Definition window_sides (W : nat) (wleft wright : option nat) : nat * nat :=
  match wleft, wright with
  | Some l, Some r => (l, r)
  | Some l, None => (l, W - l - 1)
  | None, Some r => (W - r - 1, r)
  | None, None => (ceildiv W 2 - 1, W / 2)
  end.

(** array_.py 318-404: [window]. [handle] is the default of [handle_dynamic_dims] of [pad]; the value is not a tensor with
    dims. The dim [spatial_dim - window_dim + 1] has its terms added one after the other, never below zero
    (tensor/_dim_extra.py 1243-1247, 1268-1279; the window dim is no constant, thus 2789-2793 does not merge the last two). *)
Definition window (zero : A) (handle use_mask same : bool) (W s : nat) (wleft wright : option nat) (value : pad_value)
    (lens : list nat) (rows : list (list A)) : res (list nat * list (list (list A))) :=
  let rows := if use_mask then map (fun nr => masked zero (fst nr) (snd nr)) (combine lens rows) else rows in
  let* (out, prows) :=
    if same then
      let '(l, r) := window_sides W wleft wright in
      let* (_, prows) := pad zero handle l r value lens rows in
      Ok (lens, prows)
    else Ok (map (fun n => n - W + 1) lens, rows) in
  if 1 <? s then
    let out := map (fun n => ceildiv n s) out in
    let* res := mapM (window_row_strided W s (dim_value out)) prows in
    Ok (out, res)
  else
    let* res := mapM (window_row1 zero W (dim_value out) value) prows in
    Ok (out, res).

(** _backend.py 1721-1766 and torch/util/array_.py 11-41: the elements of the flat tensor where the flat mask is set *)
Definition select_flat {T} (xs : list T) (mask : list bool) : list T := map fst (filter snd (combine xs mask)).

(** the elements of a tensor with dims [batch, time] as [copy_compatible_to_dims_raw] orders them: the dims order [batch, time]
    or [time, batch] *)
Definition flat_order {T} (batch_major : bool) (m : nat) (rows : list (list T)) : list T :=
  if batch_major then concat rows else flat_map (fun t => flat_map (fun row => firstn 1 (skipn t row)) rows) (seq 0 m).

(** array_.py 591-620: [masked_select] over all dims of the mask, batch and time *)
Definition masked_select (batch_major : bool) (lens : list nat) (rows : list (list A)) (mask : list (list bool)) : list A :=
  select_flat (flat_order batch_major (dim_value lens) rows) (flat_order batch_major (dim_value lens) mask).

(** [torch.Tensor.masked_scatter_] on flat tensors: the source elements one after the other, an error if there are too few *)
Fixpoint scatter_flat (backup : list A) (mask : list bool) (src : list A) : res (list A) :=
  match backup, mask with
  | b :: backup, true :: mask =>
      match src with
      | [] => Err OtherException
      | a :: src => let* r := scatter_flat backup mask src in Ok (a :: r)
      end
  | b :: backup, false :: mask => let* r := scatter_flat backup mask src in Ok (b :: r)
  | _, _ => Ok []
  end.

(** the rows [batch, time] back from the flat tensor in the dims order *)
Definition unflat_order (batch_major : bool) (nb m : nat) (flat : list A) : list (list A) :=
  if batch_major then map (fun b => firstn m (skipn (b * m) flat)) (seq 0 nb)
  else map (fun b => flat_map (fun t => firstn 1 (skipn (t * nb + b) flat)) (seq 0 m)) (seq 0 nb).

(** [mask.copy_masked(mask_value=False)] *)
Definition mask_masked (lens : list nat) (mask : list (list bool)) : list (list bool) :=
  map (fun nm => masked false (fst nm) (snd nm)) (combine lens mask).

(** array_.py 646-666 and _backend.py 1769-1813: [masked_scatter] over all dims of the mask; no backup is zero *)
Definition masked_scatter (batch_major : bool) (lens : list nat) (backup : list (list A)) (mask : list (list bool)) (src : list A)
  : res (list (list A)) :=
  let m := dim_value lens in
  let* flat := scatter_flat (flat_order batch_major m backup) (flat_order batch_major m (mask_masked lens mask)) src in
  Ok (unflat_order batch_major (length lens) m flat).

(** array_.py 688-703: [sequence_mask] *)
Definition sequence_mask (lens : list nat) : list (list bool) :=
  map (fun n => map (fun t => t <? n) (seq 0 (dim_value lens))) lens.

(** array_.py 706-734, 737-742 *)
Definition pack_padded (batch_major : bool) (lens : list nat) (rows : list (list A)) : list A :=
  masked_select batch_major lens rows (sequence_mask lens).
Definition pad_packed (zero : A) (batch_major : bool) (lens : list nat) (packed : list A) : res (list (list A)) :=
  masked_scatter batch_major lens (map (fun _ => repeat zero (dim_value lens)) lens) (sequence_mask lens) packed.

(** [rf.cumsum] of the mask as integers *)
Fixpoint cumsum_from (acc : nat) (mask : list bool) : list nat :=
  match mask with [] => [] | m :: mask => let acc := acc + (if m then 1 else 0) in acc :: cumsum_from acc mask end.

(** [scatter_add_] of one row into a row of [m] zeros; addition of the frames *)
Fixpoint scatter_add {T} (add : T -> T -> T) (out : list T) (idxs : list nat) (src : list T) : res (list T) :=
  match idxs, src with
  | i :: idxs, a :: src =>
      match nth_error out i with
      | None => Err IndexError
      | Some o => scatter_add add (firstn i out ++ add o a :: skipn (S i) out) idxs src
      end
  | _, _ => Ok out
  end.

(** array_.py 621-643: [masked_select] over the time dim of a mask with batch and time. [use_mask] is the default of the option of
    [scatter] (array_.py 848-853). *)
Definition masked_select_time (zero : A) (add : A -> A -> A) (use_mask : bool) (lens : list nat) (rows : list (list A))
    (mask : list (list bool)) : res (list nat * list (list A)) :=
  let mask := mask_masked lens mask in
  let idxs := map (cumsum_from 0) mask in
  let* new_size := mapM (fun idx => gather1 idx (Z.of_nat (dim_value lens) - 1)) idxs in
  let new_time := dim_value new_size in
  let idxs := map (fun im => map (fun ib => if snd ib : bool then fst ib - 1 else new_time) (combine (fst im) (snd im)))
                  (combine idxs mask) in
  let rows := if use_mask then map (fun nr => masked zero (fst nr) (snd nr)) (combine lens rows) else rows in
  let* ext := mapM (fun ir => scatter_add add (repeat zero (new_time + 1)) (fst ir) (snd ir)) (combine idxs rows) in
  slice (map (fun n => n + 1) new_size) ext NoStart None 1 (SizeDim new_size).

(** array_.py 667-685: [masked_scatter] over the time dim *)
Definition masked_scatter_time (lens : list nat) (backup : list (list A)) (mask : list (list bool)) (src : list (list A))
  : res (list (list A)) :=
  let mask := mask_masked lens mask in
  mapM (fun bms =>
          let '(b, (m, s)) := bms in
          let idx := map (fun ib => if snd ib : bool then fst ib - 1 else 0) (combine (cumsum_from 0 m) m) in
          let* g := mapM (fun i => gather1 s (Z.of_nat i)) idx in
          Ok (map (fun mgb => if fst mgb : bool then fst (snd mgb) else snd (snd mgb)) (combine m (combine g b))))
       (combine backup (combine mask src)).

End Frames.
Arguments pad_value : clear implicits.
